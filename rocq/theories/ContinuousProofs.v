From Coq Require Import Qfield.
From Verif Require Import Common ContainerModel ContainerSpec ContainerProofs ContinuousModel ContinuousSpec.

(** Level the container will have at [t] if nothing changes. *)
Definition L (s : kst) (t : Q) : Q := k_level s + k_rate s * (t - k_last s).

Definition in_range (s : kst) (e : urg) : Prop :=
  match e with
  | UStart u => (u < length (k_users s))%nat
  | CStart p => (p < length (k_checks s))%nat
  | CInt p => (p < length (k_checks s))%nat
  | UInt u Stop => (u < length (k_users s))%nat
  | UInt u Limit => ~ In u (k_active s) /\ exists v, nth_error (k_users s) u = Some v /\ forall t, u_stat v <> UInit t
  end.

Record KB (s : kst) : Prop := {
  kb_time : k_last s <= k_now s;
  kb_cap : 0 <= k_cap s;
  kb_low : 0 <= cur_level s;
  kb_high : cur_level s <= k_cap s;
  kb_nodup : NoDup (k_active s);
  kb_active : forall u, In u (k_active s) -> exists v d, nth_error (k_users s) u = Some v /\ u_stat v = UWait d;
  kb_wait : forall u v d, nth_error (k_users s) u = Some v -> u_stat v = UWait d ->
              In u (k_active s) \/ In (UInt u Limit) (k_urgent s);
  kb_urg : forall e, In e (k_urgent s) -> in_range s e;
  kb_rates : forall u v, nth_error (k_users s) u = Some v -> ~ u_rate v == 0;
  kb_checks : forall p d, nth_error (k_checks s) p = Some (CkWait d) -> k_now s <= d;
  kb_cinit : forall p, nth_error (k_checks s) p = Some CkInit ->
              exists l1 l2, k_urgent s = l1 ++ CStart p :: l2 /\ ~ In (CInt p) l1;
  kb_uinit : forall u v t, nth_error (k_users s) u = Some v -> u_stat v = UInit t ->
              exists l1 l2, k_urgent s = l1 ++ UStart u :: l2 /\ forall c, ~ In (UInt u c) l1;
  kb_live : k_halt s = None
}.

Definition chk (s : kst) : Prop :=
  match k_checking s with
  | None => k_rate s == 0
  | Some p => ~ k_rate s == 0 /\ ~ In (CInt p) (k_urgent s) /\ (p < length (k_checks s))%nat /\
      (nth_error (k_checks s) p = Some CkInit \/
       exists d, nth_error (k_checks s) p = Some (CkWait d) /\ L s d == bound s)
  end.

Definition KI (s : kst) : Prop := KB s /\ k_rate s == net_flow s /\ chk s.

(** *** Elementary facts *)
Lemma upd_length {X} (l : list X) n x : length (upd l n x) = length l.
Proof. revert n; induction l as [|y l IH]; intros [|n]; cbn; auto. Qed.
Lemma upd_same {X} (l : list X) n x : (n < length l)%nat -> nth_error (upd l n x) n = Some x.
Proof. revert n; induction l as [|y l IH]; intros [|n]; cbn; intro H; try lia; auto. apply IH. lia. Qed.
Lemma upd_other {X} (l : list X) n m x : n <> m -> nth_error (upd l n x) m = nth_error l m.
Proof.
  revert n m; induction l as [|y l IH]; intros [|n] [|m]; cbn; intro H; auto; congruence.
Qed.
Lemma nth_lt {X} (l : list X) n x : nth_error l n = Some x -> (n < length l)%nat.
Proof. intro H. apply nth_error_Some. congruence. Qed.

Lemma cur_L s : cur_level s = L s (k_now s).
Proof. reflexivity. Qed.

Lemma set_level_fields s :
  k_cap (set_level s) = k_cap s /\ k_now (set_level s) = k_now s /\ k_rate (set_level s) = k_rate s /\
  k_active (set_level s) = k_active s /\ k_checking (set_level s) = k_checking s /\
  k_users (set_level s) = k_users s /\ k_checks (set_level s) = k_checks s /\
  k_urgent (set_level s) = k_urgent s /\ k_halt (set_level s) = k_halt s /\
  k_err_empty (set_level s) = k_err_empty s /\ k_err_full (set_level s) = k_err_full s.
Proof. unfold set_level. destruct (Qltb (k_last s) (k_now s)); cbn; repeat split; reflexivity. Qed.

Lemma set_level_L s t : k_last s <= k_now s -> L (set_level s) t == L s t.
Proof.
  intro H. unfold set_level, L. destruct (Qltb (k_last s) (k_now s)) eqn:E; cbn; [ring|reflexivity].
Qed.
Lemma set_level_last s : k_last s <= k_now s -> k_last (set_level s) == k_now s.
Proof.
  intro H. unfold set_level. destruct (Qltb (k_last s) (k_now s)) eqn:E; cbn; [reflexivity|]. qbool. lra.
Qed.
Lemma set_level_level s : k_last s <= k_now s -> k_level (set_level s) == cur_level s.
Proof.
  intro H. unfold set_level, cur_level. destruct (Qltb (k_last s) (k_now s)) eqn:E; cbn; [reflexivity|]. qbool.
  assert (E2 : k_now s == k_last s) by lra. rewrite E2. ring.
Qed.
Lemma set_level_cur s : k_last s <= k_now s -> cur_level (set_level s) == cur_level s.
Proof.
  intro H. rewrite !cur_L. destruct (set_level_fields s) as (_ & -> & _). apply set_level_L. exact H.
Qed.

Lemma set_level_KB s : KB s -> KB (set_level s).
Proof.
  intros K. pose proof (set_level_fields s) as (F1 & F2 & F3 & F4 & F5 & F6 & F7 & F8 & F9 & _).
  pose proof (kb_time s K) as Ht.
  constructor; rewrite ?F1, ?F2, ?F4, ?F6, ?F7, ?F8, ?F9; try apply K.
  - rewrite set_level_last; [lra|exact Ht].
  - rewrite set_level_cur; [apply K|exact Ht].
  - rewrite set_level_cur; [apply K|exact Ht].
  - intros e He. pose proof (kb_urg s K e He) as R. destruct e as [u|p|p|u c]; cbn in *; rewrite ?F4, ?F6, ?F7; try exact R.
Qed.

Lemma set_level_flow s : net_flow (set_level s) = net_flow s.
Proof.
  pose proof (set_level_fields s) as (F1 & F2 & F3 & F4 & F5 & F6 & _). unfold net_flow, rate_of. rewrite F4, F6. reflexivity.
Qed.
Lemma set_level_chk s : k_last s <= k_now s -> chk s -> chk (set_level s).
Proof.
  intros Ht. pose proof (set_level_fields s) as (F1 & F2 & F3 & F4 & F5 & F6 & F7 & F8 & F9 & _).
  unfold chk, bound. rewrite F1, F3, F5, F7, F8. destruct (k_checking s); [|auto].
  intros (A & B & C & [D|(d & D1 & D2)]); (split; [exact A|]; split; [exact B|]; split; [exact C|]); [left; exact D|right].
  exists d. split; [exact D1|]. rewrite set_level_L; assumption.
Qed.

(** *** Changing the rate *)
Lemma nth_app_last {X} (l : list X) x n y :
  nth_error (l ++ [x]) n = Some y -> nth_error l n = Some y \/ (n = length l /\ y = x).
Proof.
  intro H. destruct (Nat.lt_ge_cases n (length l)) as [Hl|Hl].
  - rewrite nth_error_app1 in H by exact Hl. auto.
  - rewrite nth_error_app2 in H by exact Hl. right.
    assert (Hz : (n - length l)%nat = 0%nat).
    { destruct (n - length l)%nat as [|k] eqn:E; [reflexivity|]. cbn in H. destruct k; discriminate. }
    rewrite Hz in H. cbn in H. injection H as <-. split; [lia|reflexivity].
Qed.

Lemma change_rate_KI s dr : KB s -> k_rate s + dr == net_flow s -> KI (change_rate s dr).
Proof.
  intros K HR. pose proof (kb_time s K) as Ht. pose proof (set_level_KB s K) as K1.
  pose proof (set_level_last s Ht) as Hl. pose proof (set_level_flow s) as Hf.
  pose proof (set_level_fields s) as (F1 & F2 & F3 & F4 & F5 & F6 & F7 & F8 & F9 & _).
  assert (Hc : forall r, k_level (set_level s) + r * (k_now (set_level s) - k_last (set_level s)) == cur_level (set_level s)).
  { intro r. unfold cur_level. rewrite F2, Hl. ring. }
  unfold change_rate. destruct (Qeqb (k_rate (set_level s) + dr) 0) eqn:E; qbool.
  - split; [|split].
    + constructor; cbn [k_last k_now k_cap k_active k_users k_checks k_urgent k_halt]; try apply K1.
      * unfold cur_level. cbn. rewrite Hc. apply K1.
      * unfold cur_level. cbn. rewrite Hc. apply K1.
    + cbn [k_rate]. rewrite F3. change (k_rate s + dr == net_flow (set_level s)). rewrite Hf. exact HR.
    + unfold chk. cbn. exact E.
  - assert (Fresh : forall e, In e (k_urgent (set_level s)) -> e <> CInt (length (k_checks (set_level s)))).
    { intros e He ->. apply (kb_urg _ K1) in He. cbn in He. lia. }
    split; [|split].
    + constructor; cbn [k_last k_now k_cap k_active k_users k_checks k_urgent k_halt]; try apply K1.
      * unfold cur_level. cbn. rewrite Hc. apply K1.
      * unfold cur_level. cbn. rewrite Hc. apply K1.
      * intros u v d Hu Hd. destruct (kb_wait _ K1 u v d Hu Hd) as [H|H]; [auto|]. right. apply in_or_app. auto.
      * intros e He. apply in_app_or in He. destruct He as [He|[<-|[]]].
        -- pose proof (kb_urg _ K1 e He) as R. destruct e as [u|p|p|u c]; cbn in *; try exact R; rewrite app_length; cbn; lia.
        -- cbn. rewrite app_length. cbn. lia.
      * intros p d Hp. apply nth_app_last in Hp. destruct Hp as [Hp|[_ Hp]]; [|discriminate]. apply (kb_checks _ K1 p d Hp).
      * intros p Hp. apply nth_app_last in Hp. destruct Hp as [Hp|[-> _]].
        -- destruct (kb_cinit _ K1 p Hp) as (l1 & l2 & E1 & E2). exists l1, (l2 ++ [CStart (length (k_checks (set_level s)))]).
           rewrite E1, <- app_assoc. auto.
        -- exists (k_urgent (set_level s)), []. split; [reflexivity|]. intro Hin. apply (Fresh _ Hin). reflexivity.
      * intros u v t Hu Hs. destruct (kb_uinit _ K1 u v t Hu Hs) as (l1 & l2 & E1 & E2).
        exists l1, (l2 ++ [CStart (length (k_checks (set_level s)))]). rewrite E1, <- app_assoc. auto.
    + cbn [k_rate]. rewrite F3. change (k_rate s + dr == net_flow (set_level s)). rewrite Hf. exact HR.
    + unfold chk. cbn. split; [exact E|]. split.
      * intro Hin. apply in_app_or in Hin. destruct Hin as [Hin|[Hin|[]]]; [|discriminate].
        apply (Fresh _ Hin). reflexivity.
      * rewrite app_length. cbn. split; [lia|]. left. rewrite nth_error_app2 by lia. rewrite Nat.sub_diag. reflexivity.
Qed.

Lemma push_urgent_KB s l : KB s -> (forall e, In e l -> in_range s e) -> KB (push_urgent s l).
Proof.
  intros K H. constructor; cbn [push_urgent k_last k_now k_cap k_active k_users k_checks k_urgent k_halt]; try apply K.
  - intros u v d Hu Hd. destruct (kb_wait _ K u v d Hu Hd) as [Hx|Hx]; [auto|]. right. apply in_or_app. auto.
  - intros e He. apply in_app_or in He. destruct He as [He|He].
    + apply (kb_urg _ K e He).
    + apply (H e He).
  - intros p Hp. destruct (kb_cinit _ K p Hp) as (l1 & l2 & E1 & E2). exists l1, (l2 ++ l). rewrite E1, <- app_assoc. auto.
  - intros u v t Hu Hs. destruct (kb_uinit _ K u v t Hu Hs) as (l1 & l2 & E1 & E2). exists l1, (l2 ++ l). rewrite E1, <- app_assoc. auto.
Qed.

Lemma interrupt_check_KB s : KB s -> chk s -> KB (interrupt_check s) /\ k_rate (interrupt_check s) = k_rate s /\
  k_active (interrupt_check s) = k_active s /\ k_users (interrupt_check s) = k_users s.
Proof.
  intros K HC. unfold interrupt_check, chk in *. destruct (k_checking s) as [p|]; [|auto].
  destruct HC as (_ & _ & Hp & HC).
  assert (G : KB (push_urgent s [CInt p])).
  { apply push_urgent_KB; [exact K|]. intros e [<-|[]]. exact Hp. }
  destruct HC as [-> |(d & -> & _)]; cbn; auto.
Qed.

Lemma halted_false s : k_halt s = None -> halted s = false.
Proof. unfold halted. intros ->. reflexivity. Qed.

Lemma add_rate_KI s dr b : KB s -> (b = true -> chk s) -> k_rate s + dr == net_flow s -> KI (add_rate s dr b).
Proof.
  intros K HC HR. unfold add_rate. destruct b.
  - destruct (interrupt_check_KB s K (HC eq_refl)) as (K1 & E1 & E2 & E3).
    rewrite (halted_false _ (kb_live _ K1)). apply change_rate_KI; [exact K1|].
    unfold net_flow, rate_of. rewrite E1, E2, E3. exact HR.
  - rewrite (halted_false _ (kb_live _ K)). apply change_rate_KI; assumption.
Qed.

(** *** Lists of users *)
Lemma remove_nat_in u l x : NoDup l -> (In x (remove_nat u l) <-> In x l /\ x <> u).
Proof.
  induction l as [|y l IH]; cbn; intro H; [tauto|]. inversion H as [|? ? H1 H2]; subst.
  destruct (Nat.eqb_spec y u) as [->|Hn].
  - split.
    + intro Hin. split; [auto|]. intros ->. contradiction.
    + intros [[->|Hin] Hx]; [contradiction|exact Hin].
  - cbn. rewrite (IH H2). split.
    + intros [->|[Hin Hx]]; auto.
    + intros [[->|Hin] Hx]; auto.
Qed.
Lemma remove_nat_nodup u l : NoDup l -> NoDup (remove_nat u l).
Proof.
  induction l as [|y l IH]; cbn; intro H; [exact H|]. inversion H as [|? ? H1 H2]; subst.
  destruct (Nat.eqb y u); [exact H2|]. constructor; [|auto]. intro Hin. apply (remove_nat_in u l y H2) in Hin. tauto.
Qed.
Lemma remove_nat_sum (f : nat -> Q) u l : In u l -> Qsum (map f l) == f u + Qsum (map f (remove_nat u l)).
Proof.
  induction l as [|y l IH]; cbn; [intros []|]. intros [->|Hin].
  - rewrite Nat.eqb_refl. reflexivity.
  - destruct (Nat.eqb_spec y u) as [->|Hn]; [reflexivity|]. pose proof (IH Hin) as E. unfold Qsum in *. cbn in *. lra.
Qed.
Lemma fold_remove_in rem l x : NoDup l ->
  (In x (fold_left (fun l u => remove_nat u l) rem l) <-> In x l /\ ~ In x rem).
Proof.
  revert l. induction rem as [|u rem IH]; intros l H; cbn; [tauto|].
  rewrite (IH _ (remove_nat_nodup u l H)), (remove_nat_in u l x H). intuition congruence.
Qed.
Lemma fold_remove_nodup rem l : NoDup l -> NoDup (fold_left (fun l u => remove_nat u l) rem l).
Proof. revert l. induction rem as [|u rem IH]; intros l H; cbn; [exact H|]. apply IH, remove_nat_nodup, H. Qed.
Lemma fold_remove_sum (f : nat -> Q) rem l : NoDup l -> NoDup rem -> incl rem l ->
  Qsum (map f l) == Qsum (map f rem) + Qsum (map f (fold_left (fun l u => remove_nat u l) rem l)).
Proof.
  revert l. induction rem as [|u rem IH]; intros l Hl Hr Hi; cbn [map fold_left].
  { change (Qsum []) with 0. lra. }
  inversion Hr as [|? ? H1 H2]; subst.
  assert (Hu : In u l) by (apply Hi; left; reflexivity).
  rewrite (remove_nat_sum f u l Hu).
  change (Qsum (f u :: map f rem)) with (f u + Qsum (map f rem)).
  rewrite (IH (remove_nat u l)); [ring|apply remove_nat_nodup; exact Hl|exact H2|].
  intros x Hx. apply remove_nat_in; [exact Hl|]. split; [apply Hi; right; exact Hx|]. intros ->. contradiction.
Qed.

(** *** Telling users *)
Lemma tell_all s us : (forall u, In u us -> alive s u = true) ->
  tell s us = push_urgent s (map (fun u => UInt u Limit) us).
Proof.
  revert s. induction us as [|u us IH]; intros s H; cbn [tell map].
  - unfold push_urgent. rewrite app_nil_r. destruct s; reflexivity.
  - rewrite (H u (or_introl eq_refl)). rewrite IH.
    + unfold push_urgent. cbn. rewrite <- app_assoc. reflexivity.
    + intros x Hx. unfold alive in *. cbn. apply H. right. exact Hx.
Qed.

Lemma active_alive s u : KB s -> In u (k_active s) -> alive s u = true.
Proof. intros K H. destruct (kb_active s K u H) as (v & d & E1 & E2). unfold alive. rewrite E1, E2. reflexivity. Qed.

(** The users taken out by a check; [us] are active users. *)
Lemma take_out_KB s us :
  KB s -> NoDup us -> incl us (k_active s) ->
  KB (set_active (push_urgent s (map (fun u => UInt u Limit) us)) (fold_left (fun l u => remove_nat u l) us (k_active s))).
Proof.
  intros K Hn Hi. pose proof (kb_nodup s K) as Hd.
  constructor; cbn [set_active push_urgent k_last k_now k_cap k_active k_users k_checks k_urgent k_halt]; try apply K.
  - apply fold_remove_nodup. exact Hd.
  - intros u Hu. apply fold_remove_in in Hu; [|exact Hd]. apply (kb_active s K). tauto.
  - intros u v d Hu Hs. destruct (in_dec Nat.eq_dec u us) as [Hin|Hin].
    + right. apply in_or_app. right. apply in_map_iff. exists u. auto.
    + destruct (kb_wait s K u v d Hu Hs) as [Ha|Ha].
      * left. apply fold_remove_in; [exact Hd|]. auto.
      * right. apply in_or_app. auto.
  - intros e He. apply in_app_or in He. destruct He as [He|He].
    + pose proof (kb_urg s K e He) as R. destruct e as [u|p|p|u [|]]; cbn in *; try exact R.
      destruct R as [R1 R2]. split; [|exact R2]. intro Hx. apply fold_remove_in in Hx; [|exact Hd]. tauto.
    + apply in_map_iff in He. destruct He as (u & <- & Hu). cbn. split.
      * intro Hx. apply fold_remove_in in Hx; [|exact Hd]. tauto.
      * destruct (kb_active s K u (Hi u Hu)) as (v & d & E1 & E2). exists v. split; [exact E1|]. congruence.
  - intros p Hp. destruct (kb_cinit _ K p Hp) as (l1 & l2 & E1 & E2).
    exists l1, (l2 ++ map (fun u => UInt u Limit) us). rewrite E1, <- app_assoc. auto.
  - intros u v t Hu Hs. destruct (kb_uinit _ K u v t Hu Hs) as (l1 & l2 & E1 & E2).
    exists l1, (l2 ++ map (fun u => UInt u Limit) us). rewrite E1, <- app_assoc. auto.
Qed.

Lemma filter_nodup {X} (f : X -> bool) l : NoDup l -> NoDup (filter f l).
Proof. apply NoDup_filter. Qed.

(** Sign of a sum. *)
Lemma Qsum_neg_exists (f : nat -> Q) l : Qsum (map f l) < 0 -> exists u, In u l /\ f u < 0.
Proof.
  induction l as [|u l IH]; intro H.
  { change (Qsum (map f [])) with 0 in H. lra. }
  change (Qsum (map f (u :: l))) with (f u + Qsum (map f l)) in H. destruct (Qlt_le_dec (f u) 0) as [Hu|Hu].
  - exists u. split; [left; reflexivity|exact Hu].
  - destruct IH as (x & Hx & Hf); [lra|]. exists x. split; [right; exact Hx|exact Hf].
Qed.
Lemma Qsum_pos_exists (f : nat -> Q) l : 0 < Qsum (map f l) -> exists u, In u l /\ 0 < f u.
Proof.
  induction l as [|u l IH]; intro H.
  { change (Qsum (map f [])) with 0 in H. lra. }
  change (Qsum (map f (u :: l))) with (f u + Qsum (map f l)) in H. destruct (Qlt_le_dec 0 (f u)) as [Hu|Hu].
  - exists u. split; [left; reflexivity|exact Hu].
  - destruct IH as (x & Hx & Hf); [lra|]. exists x. split; [right; exact Hx|exact Hf].
Qed.

(** What the end of a check may do. *)
Definition limit_error (s s' : kst) : Prop :=
  (k_halt s' = Some REmpty /\ k_err_empty s = true /\ cur_level s == 0 /\ k_rate s < 0) \/
  (k_halt s' = Some RFull /\ k_err_full s = true /\ cur_level s == k_cap s /\ 0 < k_rate s).


(** Everything the bounds property needs, also of a halted state. *)
Definition bounded (s : kst) : Prop := 0 <= cur_level s /\ cur_level s <= k_cap s.

Lemma push_cur s l : cur_level (push_urgent s l) = cur_level s.
Proof. reflexivity. Qed.
Lemma KI_bounded s : KI s -> bounded s.
Proof. intros (K & _). split; apply K. Qed.

(** Told users of a step: those in [told s'] beyond [told s]. *)
Lemma told_app s l : told (push_urgent s l) = told s ++ flat_map (fun e => match e with UInt u Limit => [u] | _ => [] end) l.
Proof. unfold told. cbn. apply flat_map_app. Qed.
Lemma told_map us : flat_map (fun e => match e with UInt u Limit => [u] | _ => [] end) (map (fun u => UInt u Limit) us) = us.
Proof. induction us as [|u us IH]; cbn; [reflexivity|]. rewrite IH. reflexivity. Qed.

Lemma change_rate_told s dr : told (change_rate s dr) = told s.
Proof.
  pose proof (set_level_fields s) as (_ & _ & _ & _ & _ & _ & _ & F8 & _).
  unfold change_rate, told. destruct (Qeqb _ 0); cbn; rewrite ?flat_map_app, ?F8; cbn; rewrite ?app_nil_r; reflexivity.
Qed.

(** [check_finally]: either nothing to do, or the limit is reached. *)
Lemma check_finally_cases s :
  KB s -> k_rate s == net_flow s ->
  let s' := check_finally s in
  (s' = set_level s /\
     (k_rate s < 0 -> ~ cur_level s == 0) /\ (0 < k_rate s -> ~ cur_level s == k_cap s)) \/
  (exists us, us <> [] /\ at_limit s /\
     us = (if Qltb (k_rate s) 0 then active_gets s else active_puts s) /\
     ((limit_error s s' /\ s' = set_halt (push_urgent (set_level s) (map (fun u => UInt u Limit) us)) (if Qltb (k_rate s) 0 then REmpty else RFull)) \/
      (KI s' /\ k_active s' = fold_left (fun l u => remove_nat u l) us (k_active s) /\ told s' = told s ++ us /\
       s' = change_rate (set_active (push_urgent (set_level s) (map (fun u => UInt u Limit) us)) (fold_left (fun l u => remove_nat u l) us (k_active s))) (- Qsum (map (rate_of s) us))))).
Proof.
  intros K HR. cbv zeta. pose proof (kb_time s K) as Ht.
  pose proof (set_level_KB s K) as K1. pose proof (set_level_flow s) as Hf.
  pose proof (set_level_fields s) as (F1 & F2 & F3 & F4 & F5 & F6 & F7 & F8 & F9 & F10 & F11).
  pose proof (set_level_level s Ht) as Hlv. pose proof (set_level_cur s Ht) as Hcu.
  pose proof (kb_low s K) as Hlo. pose proof (kb_high s K) as Hhi.
  assert (RO : forall u, rate_of (set_level s) u = rate_of s u) by (intro u; unfold rate_of; rewrite F6; reflexivity).
  assert (FG : active_gets (set_level s) = active_gets s).
  { unfold active_gets. rewrite F4. apply filter_ext. intro u. rewrite RO. reflexivity. }
  assert (FP : active_puts (set_level s) = active_puts s).
  { unfold active_puts. rewrite F4. apply filter_ext. intro u. rewrite RO. reflexivity. }
  (* the common removal argument *)
  assert (G : forall us, NoDup us -> incl us (k_active s) -> us <> [] ->
     let s1 := push_urgent (set_level s) (map (fun u => UInt u Limit) us) in
     let s2 := add_rate (set_active s1 (fold_left (fun l u => remove_nat u l) us (k_active s1))) (- Qsum (map (rate_of s1) us)) false in
     KI s2 /\ k_active s2 = fold_left (fun l u => remove_nat u l) us (k_active s) /\ told s2 = told s ++ us /\
     s2 = change_rate (set_active (push_urgent (set_level s) (map (fun u => UInt u Limit) us)) (fold_left (fun l u => remove_nat u l) us (k_active s))) (- Qsum (map (rate_of s) us))).
  { intros us Hn Hi Hne. cbv zeta.
    assert (Hi' : incl us (k_active (set_level s))) by (rewrite F4; exact Hi).
    pose proof (take_out_KB (set_level s) us K1 Hn Hi') as K2.
    assert (ER : map (rate_of (push_urgent (set_level s) (map (fun u => UInt u Limit) us))) us = map (rate_of s) us).
    { apply map_ext. intro u. change (rate_of (set_level s) u = rate_of s u). apply RO. }
    cbn [push_urgent k_active]. rewrite F4. rewrite F4 in K2. fold (push_urgent (set_level s) (map (fun u => UInt u Limit) us)).
    rewrite ER. unfold add_rate. rewrite (halted_false _ (kb_live _ K2)).
    split; [|split; [|split; [|reflexivity]]].
    - apply change_rate_KI; [exact K2|].
      pose proof (fold_remove_sum (rate_of s) us (k_active s) (kb_nodup s K) Hn Hi) as Hs.
      change (k_rate (set_level s) + - Qsum (map (rate_of s) us) ==
              Qsum (map (rate_of (set_level s)) (fold_left (fun l u => remove_nat u l) us (k_active s)))).
      rewrite F3, HR, (map_ext _ _ RO). unfold net_flow. lra.
    - unfold change_rate. set (x := set_active _ _).
      pose proof (set_level_fields x) as (_ & _ & _ & X4 & _).
      destruct (Qeqb _ 0); cbn [k_active]; rewrite X4; reflexivity.
    - rewrite change_rate_told. unfold told. cbn. rewrite F8, flat_map_app, told_map. reflexivity. }
  unfold check_finally. rewrite F3.
  destruct (Qltb (k_rate s) 0) eqn:Er.
  - qbool. unfold check_empty. destruct (Qltb 0 (k_level (set_level s))) eqn:El; qbool.
    + rewrite (halted_false _ (kb_live _ K1)). left. split; [reflexivity|]. split; [intros _; lra|intro; lra].
    + assert (E0 : cur_level s == 0) by lra. right. exists (active_gets s).
      rewrite FG. rewrite tell_all by (intros u Hu; apply active_alive; [exact K1|]; rewrite F4; apply filter_In in Hu; tauto).
      rewrite (halted_false (push_urgent _ _)) by (cbn; apply K1).
      assert (Hne : active_gets s <> []).
      { destruct (Qsum_neg_exists (rate_of s) (k_active s)) as (u & Hu & Hr); [unfold net_flow in HR; lra|].
        intro En. assert (Hin : In u (active_gets s)) by (apply filter_In; split; [exact Hu|apply Qltb_lt; exact Hr]).
        rewrite En in Hin. destruct Hin. }
      assert (B : at_limit s).
      { split; [lra|]. unfold bound. destruct (Qltb 0 (k_rate s)) eqn:Eb; qbool; lra. }
      split; [exact Hne|]. split; [exact B|]. split; [reflexivity|].
      destruct (Qeqb (k_level (set_level s)) 0 && k_err_empty (set_level s)) eqn:Ee.
      * left. apply andb_prop in Ee. destruct Ee as [_ Ee]. cbn. split; [|reflexivity]. left. rewrite <- F10. auto.
      * destruct (Qltb (k_level (set_level s)) 0) eqn:En; qbool; [lra|].
        rewrite (halted_false (push_urgent _ _)) by (cbn; apply K1).
        right. destruct (active_gets s) as [|g0 gs] eqn:Eg; [congruence|]. rewrite <- Eg in *.
        apply G; [apply filter_nodup, K| |exact Hne]. intros u Hu. apply filter_In in Hu. tauto.
  - qbool. destruct (Qltb 0 (k_rate s)) eqn:Er2.
    + qbool. unfold check_full. destruct (Qltb (k_level (set_level s)) (k_cap (set_level s))) eqn:El; rewrite F1 in El; qbool.
      * rewrite (halted_false _ (kb_live _ K1)). left. split; [reflexivity|]. split; [intro; lra|intros _; lra].
      * assert (E0 : cur_level s == k_cap s) by lra. right. exists (active_puts s).
        rewrite FP. rewrite tell_all by (intros u Hu; apply active_alive; [exact K1|]; rewrite F4; apply filter_In in Hu; tauto).
        rewrite (halted_false (push_urgent _ _)) by (cbn; apply K1).
        assert (Hne : active_puts s <> []).
        { destruct (Qsum_pos_exists (rate_of s) (k_active s)) as (u & Hu & Hr); [unfold net_flow in HR; lra|].
          intro En. assert (Hin : In u (active_puts s)) by (apply filter_In; split; [exact Hu|apply Qltb_lt; exact Hr]).
          rewrite En in Hin. destruct Hin. }
        assert (B : at_limit s).
        { split; [lra|]. unfold bound. destruct (Qltb 0 (k_rate s)) eqn:Eb; qbool; lra. }
        split; [exact Hne|]. split; [exact B|]. split; [reflexivity|].
        rewrite F1. destruct (Qeqb (k_level (set_level s)) (k_cap s) && k_err_full (set_level s)) eqn:Ee.
        -- left. apply andb_prop in Ee. destruct Ee as [_ Ee]. cbn. split; [|reflexivity]. right. rewrite <- F11. auto.
        -- destruct (Qltb (k_cap s) (k_level (set_level s))) eqn:En; qbool; [lra|].
           rewrite (halted_false (push_urgent _ _)) by (cbn; apply K1).
           right. destruct (active_puts s) as [|g0 gs] eqn:Eg; [congruence|]. rewrite <- Eg in *.
           apply G; [apply filter_nodup, K| |exact Hne]. intros u Hu. apply filter_In in Hu. tauto.
    + qbool. rewrite (halted_false _ (kb_live _ K1)). left. split; [reflexivity|]. split; intro; lra.
Qed.

(** *** What no operation at one instant changes *)
Definition newest (s : kst) : Prop :=
  exists u v rest, k_quant s = (u, v) :: rest /\ u == k_last s /\ v == k_level s.
Definition qext (s s' : kst) : Prop :=
  (exists pre, k_quant s' = pre ++ k_quant s /\ Forall (fun p => fst p = k_now s /\ snd p == cur_level s) pre) /\
  (lhist_ok (k_now s) (k_quant s) -> lhist_ok (k_now s) (k_quant s')).
Record SL (s s' : kst) : Prop := {
  sl_now : k_now s' = k_now s;
  sl_cap : k_cap s' = k_cap s;
  sl_ee : k_err_empty s' = k_err_empty s;
  sl_ef : k_err_full s' = k_err_full s;
  sl_time : k_last s' <= k_now s';
  sl_cur : cur_level s' == cur_level s;
  sl_q : qext s s';
  sl_new : newest s -> newest s'
}.

Lemma SL_same s s' : k_last s <= k_now s -> k_now s' = k_now s -> k_cap s' = k_cap s -> k_err_empty s' = k_err_empty s ->
  k_err_full s' = k_err_full s -> k_last s' = k_last s -> k_level s' = k_level s -> k_rate s' = k_rate s ->
  k_quant s' = k_quant s -> SL s s'.
Proof.
  intros Ht E1 E2 E3 E4 E5 E6 E7 E8. constructor; try assumption.
  - rewrite E1, E5. exact Ht.
  - unfold cur_level. rewrite E1, E5, E6, E7. reflexivity.
  - split; [exists []; split; [exact E8|constructor]|]. rewrite E8. auto.
  - unfold newest. rewrite E5, E6, E8. auto.
Qed.
Lemma SL_refl s : k_last s <= k_now s -> SL s s.
Proof. intro H. apply SL_same; auto. Qed.
Lemma SL_trans s1 s2 s3 : SL s1 s2 -> SL s2 s3 -> SL s1 s3.
Proof.
  intros A B. constructor.
  - rewrite (sl_now _ _ B). apply A.
  - rewrite (sl_cap _ _ B). apply A.
  - rewrite (sl_ee _ _ B). apply A.
  - rewrite (sl_ef _ _ B). apply A.
  - apply B.
  - rewrite (sl_cur _ _ B). apply A.
  - destruct (sl_q _ _ A) as [(p1 & E1 & F1) G1]. destruct (sl_q _ _ B) as [(p2 & E2 & F2) G2]. split.
    + exists (p2 ++ p1). split; [rewrite E2, E1, app_assoc; reflexivity|]. apply Forall_app. split; [|exact F1].
      eapply Forall_impl; [|exact F2]. intros p [Hp1 Hp2]. rewrite Hp1, Hp2. split; [apply A|apply A].
    + intro H. rewrite (sl_now _ _ A) in G2. auto.
  - intro H. apply B, A, H.
Qed.

Lemma crecord_newest now v q : exists u w rest, crecord now v q = (u, w) :: rest /\ u == now /\ w == v.
Proof.
  unfold crecord. destruct q as [|[u w] q].
  - exists now, v, []. split; [reflexivity|]. split; reflexivity.
  - destruct (Qeqb now u && Qeqb v w) eqn:E.
    + apply andb_prop in E. destruct E as [E1 E2]. qbool. exists u, w, q. split; [reflexivity|].
      split; symmetry; assumption.
    + exists now, v, ((u, w) :: q). split; [reflexivity|]. split; reflexivity.
Qed.
Lemma crecord_pre now v q : exists pre, crecord now v q = pre ++ q /\ Forall (fun p => fst p = now /\ snd p = v) pre.
Proof.
  unfold crecord. destruct q as [|[u w] q].
  - exists [(now, v)]. split; [reflexivity|]. constructor; auto.
  - destruct (Qeqb now u && Qeqb v w).
    + exists []. split; [reflexivity|constructor].
    + exists [(now, v)]. split; [reflexivity|]. constructor; auto.
Qed.

Lemma set_level_quant s : k_quant (set_level s) = crecord (k_now s) (k_level (set_level s)) (k_quant s).
Proof. unfold set_level. destruct (Qltb (k_last s) (k_now s)); reflexivity. Qed.

Lemma set_level_newest s : k_last s <= k_now s -> newest (set_level s).
Proof.
  intro Ht. unfold newest. rewrite set_level_quant.
  destruct (crecord_newest (k_now s) (k_level (set_level s)) (k_quant s)) as (u & w & rest & E & E1 & E2).
  exists u, w, rest. split; [exact E|]. split; [|exact E2]. rewrite E1, set_level_last; [reflexivity|exact Ht].
Qed.

Lemma SL_set_level s : k_last s <= k_now s -> SL s (set_level s).
Proof.
  intro Ht. pose proof (set_level_fields s) as (F1 & F2 & F3 & F4 & F5 & F6 & F7 & F8 & F9 & F10 & F11).
  constructor; try assumption.
  - rewrite set_level_last by exact Ht. rewrite F2. lra.
  - apply set_level_cur. exact Ht.
  - split; rewrite set_level_quant.
    + destruct (crecord_pre (k_now s) (k_level (set_level s)) (k_quant s)) as (pre & E & F).
      exists pre. split; [exact E|]. eapply Forall_impl; [|exact F]. intros p [Hp1 Hp2]. split; [exact Hp1|].
      rewrite Hp2. apply set_level_level. exact Ht.
    + apply crecord_good.
  - intros _. apply set_level_newest. exact Ht.
Qed.

Ltac slsame := apply SL_same; cbn; auto.

Lemma SL_interrupt s : k_last s <= k_now s -> SL s (interrupt_check s).
Proof.
  intro Ht. unfold interrupt_check. destruct (k_checking s) as [p|]; [|apply SL_refl; exact Ht].
  destruct (nth_error (k_checks s) p) as [[| |]|]; slsame.
Qed.

Lemma SL_change_rate s dr : k_last s <= k_now s -> SL s (change_rate s dr).
Proof.
  intro Ht. apply SL_trans with (set_level s); [apply SL_set_level; exact Ht|].
  pose proof (set_level_last s Ht) as Hl. pose proof (set_level_fields s) as (F1 & F2 & _).
  pose proof (set_level_newest s Ht) as Hn.
  assert (HT : k_last (set_level s) <= k_now (set_level s)) by (rewrite Hl, F2; lra).
  unfold change_rate. destruct (Qeqb _ 0); (constructor; cbn; try reflexivity; [exact HT| | |intros _; exact Hn]).
  all: try (unfold cur_level; cbn; rewrite F2, Hl; ring).
  all: split; [exists []; split; [reflexivity|constructor]|auto].
Qed.
Lemma SL_add_rate s dr b : k_last s <= k_now s -> SL s (add_rate s dr b).
Proof.
  intro Ht. unfold add_rate. set (s1 := if b then interrupt_check s else s).
  assert (A : SL s s1) by (destruct b; [apply SL_interrupt; exact Ht|apply SL_refl; exact Ht]).
  destruct (halted s1); [exact A|]. eapply SL_trans; [exact A|]. apply SL_change_rate. apply A.
Qed.
Lemma SL_add_user s u : k_last s <= k_now s -> SL s (add_user s u).
Proof.
  intro Ht. unfold add_user. eapply SL_trans; [|apply SL_add_rate; exact Ht]. slsame.
Qed.
Lemma SL_remove_user s u : k_last s <= k_now s -> SL s (remove_user s u).
Proof.
  intro Ht. unfold remove_user. destruct (existsb _ _); [|slsame].
  eapply SL_trans; [|apply SL_add_rate; exact Ht]. slsame.
Qed.
Lemma SL_tell us : forall s, k_last s <= k_now s -> SL s (tell s us).
Proof.
  induction us as [|u us IH]; intros s Ht; cbn [tell]; [apply SL_refl; exact Ht|].
  destruct (alive s u); [|slsame]. eapply SL_trans; [|apply IH; exact Ht]. slsame.
Qed.
Lemma SL_check_empty s : k_last s <= k_now s -> SL s (fst (check_empty s)).
Proof.
  intro Ht. pose proof (SL_tell (active_gets s) s Ht) as A. unfold check_empty.
  destruct (Qltb 0 (k_level s)); [apply SL_refl; exact Ht|].
  destruct (halted _); [exact A|]. destruct (_ && _); [eapply SL_trans; [exact A|]; apply SL_same; cbn; auto; apply A|].
  destruct (Qltb _ 0); [eapply SL_trans; [exact A|]; apply SL_same; cbn; auto; apply A|exact A].
Qed.
Lemma SL_check_full s : k_last s <= k_now s -> SL s (fst (check_full s)).
Proof.
  intro Ht. pose proof (SL_tell (active_puts s) s Ht) as A. unfold check_full.
  destruct (Qltb _ (k_cap s)); [apply SL_refl; exact Ht|].
  destruct (halted _); [exact A|]. destruct (_ && _); [eapply SL_trans; [exact A|]; apply SL_same; cbn; auto; apply A|].
  destruct (Qltb (k_cap s) _); [eapply SL_trans; [exact A|]; apply SL_same; cbn; auto; apply A|exact A].
Qed.
Lemma SL_check_finally s : k_last s <= k_now s -> SL s (check_finally s).
Proof.
  intro Ht. unfold check_finally. pose proof (SL_set_level s Ht) as A. pose proof (sl_time _ _ A) as Ht1.
  set (X := if Qltb (k_rate (set_level s)) 0 then _ else _).
  assert (B : SL (set_level s) (fst X)).
  { unfold X. destruct (Qltb _ 0); [apply SL_check_empty; exact Ht1|].
    destruct (Qltb 0 _); [apply SL_check_full; exact Ht1|apply SL_refl; exact Ht1]. }
  destruct X as [s1 to_rem]. cbn [fst] in B.
  pose proof (SL_trans _ _ _ A B) as C. destruct (halted s1); [exact C|].
  destruct to_rem as [|u us]; [exact C|]. eapply SL_trans; [exact C|].
  eapply SL_trans; [|apply SL_add_rate; apply C]. apply SL_same; cbn; auto. apply C.
Qed.
Lemma SL_check_start s p : k_last s <= k_now s -> SL s (check_start s p).
Proof.
  intro Ht. unfold check_start. destruct (Qeqb _ 0); [slsame|]. destruct (Qltb _ 0); [|slsame]. cbn zeta.
  assert (A : SL s (check_finally (set_ckstat s p CkEnd))) by (eapply SL_trans; [|apply SL_check_finally; exact Ht]; slsame).
  destruct (halted _); [exact A|]. eapply SL_trans; [exact A|]. apply SL_same; cbn; auto. apply A.
Qed.
Lemma SL_user_start s u : k_last s <= k_now s -> SL s (user_start s u).
Proof.
  intro Ht. unfold user_start. destruct (nth_error (k_users s) u) as [v|]; [|apply SL_refl; exact Ht].
  destruct (u_stat v) as [t| |]; try (apply SL_refl; exact Ht).
  pose proof (SL_add_user s u Ht) as A. destruct (halted _); [exact A|].
  destruct t as [d|]; [destruct (Qltb d 0)|]; (eapply SL_trans; [exact A|]; apply SL_same; cbn; auto; apply A).
Qed.
Lemma SL_do_urgent s e : k_last s <= k_now s -> SL s (do_urgent s e).
Proof.
  intro Ht. destruct e as [u|p|p|u c]; cbn [do_urgent].
  - apply SL_user_start. exact Ht.
  - apply SL_check_start. exact Ht.
  - destruct (nth_error (k_checks s) p) as [[| |]|]; try (apply SL_refl; exact Ht); [slsame|].
    eapply SL_trans; [|apply SL_check_finally; exact Ht]. slsame.
  - destruct (nth_error (k_users s) u) as [v|]; [|apply SL_refl; exact Ht].
    destruct (u_stat v) as [t|t|]; [slsame| |apply SL_refl; exact Ht].
    destruct c; [|slsame]. eapply SL_trans; [|apply SL_remove_user; exact Ht]. slsame.
Qed.

(** Every operation, other than the passing of time. *)
Lemma kstep_level s o s' : k_last s <= k_now s -> kstep s o = Some s' ->
  SL s s' \/
  (exists t, o = KAdvance t /\ k_now s <= t /\ not_before t s = true /\ k_urgent s = [] /\
     s' = mkK (k_cap s) (k_err_empty s) (k_err_full s) t (k_level s) (k_rate s) (k_last s)
            (k_active s) (k_checking s) (k_users s) (k_checks s) (k_urgent s) (k_halt s) (k_quant s)).
Proof.
  intros Ht H. unfold kstep in H. destruct (halted s); [discriminate|]. destruct o as [r t|r t|u| | |u|p|t].
  - destruct (Qleb r 0); [discriminate|]. injection H as <-. left. slsame.
  - destruct (Qleb r 0); [discriminate|]. injection H as <-. left. slsame.
  - destruct (alive s u); [|discriminate]. injection H as <-. left. slsame.
  - injection H as <-. left. apply SL_set_level. exact Ht.
  - destruct (k_urgent s) as [|e l]; [discriminate|]. injection H as <-. left.
    eapply SL_trans; [|apply SL_do_urgent; exact Ht]. slsame.
  - destruct (k_urgent s); [|discriminate]. unfold fire_user in H.
    destruct (nth_error (k_users s) u) as [v|]; [|discriminate].
    destruct (u_stat v) as [|[d|]|]; try discriminate. destruct (Qeqb d (k_now s)); [|discriminate].
    injection H as <-. left. eapply SL_trans; [|apply SL_remove_user; exact Ht]. slsame.
  - destruct (k_urgent s); [|discriminate]. unfold fire_check in H.
    destruct (nth_error (k_checks s) p) as [[|d|]|]; try discriminate. destruct (Qeqb d (k_now s)); [|discriminate].
    injection H as <-. left. eapply SL_trans; [|apply SL_check_finally; exact Ht]. slsame.
  - right. exists t. destruct (k_urgent s) as [|e l] eqn:E; [|discriminate].
    destruct (Qleb (k_now s) t && not_before t s) eqn:E2; [|discriminate]. apply andb_prop in E2. destruct E2 as [E2 E3].
    qbool. injection H as <-. auto.
Qed.

(** *** Preservation of the invariant *)
Lemma nth_upd {X} (l : list X) n m x y : nth_error (upd l n x) m = Some y ->
  (n = m /\ y = x /\ (n < length l)%nat) \/ (n <> m /\ nth_error l m = Some y).
Proof.
  intro H. destruct (Nat.eq_dec n m) as [->|Hn].
  - left. pose proof (nth_lt _ _ _ H) as Hl. rewrite upd_length in Hl. rewrite upd_same in H by exact Hl.
    injection H as <-. auto.
  - right. rewrite upd_other in H by exact Hn. auto.
Qed.

(** Check process [p] ends or starts waiting. *)
Lemma set_ckstat_KB s p x l :
  KB s -> x <> CkInit -> (forall d, x = CkWait d -> k_now s <= d) ->
  (k_urgent s = l \/ exists e, k_urgent s = e :: l /\ (e = CStart p \/ e = CInt p)) ->
  KB (set_ckstat (set_urgent s l) p x).
Proof.
  intros K Hx Hd Hl.
  assert (Hin : forall e, In e l -> In e (k_urgent s)) by (intros e He; destruct Hl as [->|(e0 & -> & _)]; [exact He|right; exact He]).
  constructor; cbn [set_ckstat set_urgent k_last k_now k_cap k_active k_users k_checks k_urgent k_halt]; try apply K.
  - intros u v d Hu Hs. destruct (kb_wait s K u v d Hu Hs) as [H|H]; [auto|right].
    destruct Hl as [<-|(e & E & [->| ->])]; [exact H| |]; rewrite E in H; destruct H as [H|H]; (discriminate || exact H).
  - intros e He. pose proof (kb_urg s K e (Hin e He)) as R. destruct e as [u|q|q|u c]; cbn in *; rewrite ?upd_length; exact R.
  - intros q d Hq. apply nth_upd in Hq. destruct Hq as [(-> & E & _)|(_ & Hq)]; [apply Hd; auto|apply (kb_checks s K q d Hq)].
  - intros q Hq. apply nth_upd in Hq. destruct Hq as [(-> & E & _)|(Hn & Hq)]; [congruence|].
    destruct (kb_cinit s K q Hq) as (l1 & l2 & E1 & E2).
    destruct Hl as [<-|(e & E & He)]; [eauto|]. rewrite E1 in E. destruct l1 as [|e1 l1].
    + cbn in E. injection E as Ee El. destruct He as [->| ->]; congruence.
    + cbn in E. injection E as Ee El. exists l1, l2. split; [auto|]. intro H. apply E2. right. exact H.
  - intros u v t Hu Hs. destruct (kb_uinit s K u v t Hu Hs) as (l1 & l2 & E1 & E2).
    destruct Hl as [<-|(e & E & He)]; [eauto|]. rewrite E1 in E. destruct l1 as [|e1 l1].
    + cbn in E. injection E as Ee El. destruct He as [->| ->]; congruence.
    + cbn in E. injection E as Ee El. exists l1, l2. split; [auto|]. intros c H. apply (E2 c). right. exact H.
Qed.

Lemma chk_other s p x l :
  KB s -> chk s -> k_checking s <> Some p -> (forall e, In e l -> In e (k_urgent s)) ->
  chk (set_ckstat (set_urgent s l) p x).
Proof.
  intros K HC Hp Hin. unfold chk in *. cbn. destruct (k_checking s) as [q|]; [|exact HC].
  destruct HC as (A & B & C & D). split; [exact A|]. split; [intro H; apply B, Hin, H|].
  rewrite upd_length. split; [exact C|]. rewrite upd_other by congruence. exact D.
Qed.

Definition hreason (s : kst) (r : reason) : Prop :=
  match r with
  | REmpty => k_err_empty s = true /\ cur_level s == 0 /\ k_rate s < 0
  | RFull => k_err_full s = true /\ cur_level s == k_cap s /\ 0 < k_rate s
  | RNotActive => exists u l, k_urgent s = UInt u Stop :: l /\ ~ In u (k_active s)
  | RNegDelay => exists u v d, nth_error (k_users s) u = Some v /\ u_stat v = UInit (Some d) /\ d < 0
  | _ => False
  end.
Definition okstep (s s' : kst) : Prop := KI s' \/ exists r, k_halt s' = Some r /\ hreason s r.

(** End of a check process. *)
Lemma finally_ok s p l :
  KI s -> (exists d, nth_error (k_checks s) p = Some (CkWait d) /\ (d == k_now s \/ k_checking s <> Some p)) ->
  (k_urgent s = l \/ exists e, k_urgent s = e :: l /\ (e = CStart p \/ e = CInt p)) ->
  okstep s (check_finally (set_ckstat (set_urgent s l) p CkEnd)).
Proof.
  intros (K & HR & HC) (d & Hd & Hcase) Hl.
  set (s1 := set_ckstat (set_urgent s l) p CkEnd).
  assert (K1 : KB s1) by (apply set_ckstat_KB; [exact K|discriminate|discriminate|exact Hl]).
  assert (Hin : forall e, In e l -> In e (k_urgent s)) by (intros e He; destruct Hl as [->|(e0 & -> & _)]; [exact He|right; exact He]).
  assert (R1 : k_rate s1 == net_flow s1) by exact HR.
  destruct (check_finally_cases s1 K1 R1) as [(E & N1 & N2)|(us & Hne & HL & Eus & [(HE & _)|(HK & _)])].
  - destruct (option_map (Nat.eqb p) (k_checking s)) as [[|]|] eqn:Eo.
    + (* the running check: impossible, the limit is reached *)
      destruct (k_checking s) as [q|] eqn:Ec; [|discriminate]. cbn in Eo. injection Eo as Eo. apply Nat.eqb_eq in Eo. subst q.
      destruct Hcase as [Hnow|Hn]; [|congruence].
      unfold chk in HC. rewrite Ec in HC. destruct HC as (A & _ & _ & [D|(d' & D1 & D2)]); [congruence|].
      assert (d' = d) by congruence. subst d'.
      assert (EL : cur_level s == bound s). { rewrite cur_L. unfold L in *. rewrite <- D2, Hnow. reflexivity. }
      unfold bound in EL. destruct (Qltb 0 (k_rate s)) eqn:Eb; qbool.
      * exfalso. apply N2; [exact Eb|exact EL].
      * exfalso. apply N1; [cbn; lra|exact EL].
    + left. rewrite E. split; [apply set_level_KB; exact K1|]. split.
      * rewrite set_level_flow. pose proof (set_level_fields s1) as (_ & _ & -> & _). exact R1.
      * apply set_level_chk; [apply K1|]. apply chk_other; try assumption.
        destruct (k_checking s) as [q|]; [|discriminate]. cbn in Eo. injection Eo as Eo. apply Nat.eqb_neq in Eo. congruence.
    + left. rewrite E. split; [apply set_level_KB; exact K1|]. split.
      * rewrite set_level_flow. pose proof (set_level_fields s1) as (_ & _ & -> & _). exact R1.
      * apply set_level_chk; [apply K1|]. apply chk_other; try assumption.
        destruct (k_checking s); [discriminate|]. discriminate.
  - right. destruct HE as [(A & B & C & D)|(A & B & C & D)]; eexists; (split; [exact A|]); cbn; auto.
  - left. exact HK.
Qed.

(** User [u] ends and was active: it is removed. *)
Lemma remove_ok s u v d l :
  KI s -> nth_error (k_users s) u = Some v -> u_stat v = UWait d -> In u (k_active s) ->
  (k_urgent s = l \/ k_urgent s = UInt u Stop :: l) ->
  KI (remove_user (set_ustat (set_urgent s l) u UEnd) u).
Proof.
  intros (K & HR & HC) Hu Hs Ha Hl. unfold remove_user.
  assert (Hin : forall e, In e l -> In e (k_urgent s)) by (intros e He; destruct Hl as [->| ->]; [exact He|right; exact He]).
  assert (E : existsb (Nat.eqb u) (k_active (set_ustat (set_urgent s l) u UEnd)) = true).
  { apply existsb_exists. exists u. split; [exact Ha|apply Nat.eqb_refl]. }
  rewrite E. cbn [k_active set_ustat set_urgent]. clear E.
  pose proof (nth_lt _ _ _ Hu) as Hlen. pose proof (kb_nodup s K) as Hnd.
  assert (RO : forall x, rate_of (set_ustat (set_urgent s l) u UEnd) x = rate_of s x).
  { intro x. unfold rate_of. cbn. rewrite Hu. destruct (Nat.eq_dec u x) as [->|Hn].
    - rewrite upd_same by exact Hlen. rewrite Hu. reflexivity.
    - rewrite upd_other by exact Hn. reflexivity. }
  apply add_rate_KI.
  - constructor; cbn [set_active set_ustat set_urgent k_last k_now k_cap k_active k_users k_checks k_urgent k_halt]; rewrite ?Hu; try apply K.
    + apply remove_nat_nodup. exact Hnd.
    + intros x Hx. apply remove_nat_in in Hx; [|exact Hnd]. destruct Hx as [Hx Hn].
      rewrite upd_other by congruence. apply (kb_active s K x Hx).
    + intros x w d' Hx Hw. apply nth_upd in Hx. destruct Hx as [(-> & -> & _)|(Hn & Hx)]; [discriminate|].
      destruct (kb_wait s K x w d' Hx Hw) as [H|H]; [left; apply remove_nat_in; auto|right].
      destruct Hl as [<-|E]; [exact H|]. rewrite E in H. destruct H as [H|H]; [discriminate|exact H].
    + intros e He. pose proof (kb_urg s K e (Hin e He)) as R. destruct e as [x|q|q|x [|]]; cbn in *; rewrite ?Hu, ?upd_length; try exact R.
      destruct R as (R1 & w & R2 & R3). split; [intro Hx; apply remove_nat_in in Hx; [|exact Hnd]; tauto|].
      destruct (Nat.eq_dec u x) as [<-|Hn].
      * contradiction.
      * exists w. rewrite upd_other by exact Hn. auto.
    + intros x w Hx. apply nth_upd in Hx. destruct Hx as [(-> & -> & _)|(Hn & Hx)]; [cbn|]; eapply (kb_rates s K); eassumption.
    + intros q Hq. destruct (kb_cinit s K q Hq) as (l1 & l2 & E1 & E2). destruct Hl as [<-|El]; [eauto|].
      rewrite E1 in El. destruct l1 as [|e1 l1]; cbn in El; [discriminate|]. injection El as Ee El.
      exists l1, l2. split; [auto|]. intro H. apply E2. right. exact H.
    + intros x w t Hx Hw. apply nth_upd in Hx. destruct Hx as [(-> & -> & _)|(Hn & Hx)]; [discriminate|].
      destruct (kb_uinit s K x w t Hx Hw) as (l1 & l2 & E1 & E2). destruct Hl as [<-|El]; [eauto|].
      rewrite E1 in El. destruct l1 as [|e1 l1]; cbn in El; [discriminate|]. injection El as Ee El.
      exists l1, l2. split; [auto|]. intros c H. apply (E2 c). right. exact H.
  - intros _. unfold chk in *. cbn. destruct (k_checking s) as [q|]; [|exact HC].
    destruct HC as (A & B & C & D). split; [exact A|]. split; [intro H; apply B, Hin, H|]. split; [exact C|exact D].
  - rewrite RO. unfold net_flow. 
    change (map (rate_of (set_active (set_ustat (set_urgent s l) u UEnd) (remove_nat u (k_active s)))))
      with (map (rate_of (set_ustat (set_urgent s l) u UEnd))).
    cbn [k_active set_active k_rate set_ustat set_urgent]. rewrite (map_ext _ _ RO).
    pose proof (remove_nat_sum (rate_of s) u (k_active s) Ha) as Hsum. unfold net_flow in HR. lra.
Qed.

Lemma add_rate_set_ustat s dr b u x : set_ustat (add_rate s dr b) u x = add_rate (set_ustat s u x) dr b.
Proof.
  unfold add_rate.
  assert (E : (if b then interrupt_check (set_ustat s u x) else set_ustat s u x) =
              set_ustat (if b then interrupt_check s else s) u x).
  { destruct b; [|reflexivity]. unfold interrupt_check. cbn. destruct (k_checking s) as [p|]; [|reflexivity].
    destruct (nth_error (k_checks s) p) as [[| |]|]; reflexivity. }
  rewrite E. set (s1 := if b then _ else _). unfold halted. cbn.
  destruct (k_halt s1); [reflexivity|]. unfold change_rate, set_level. cbn.
  destruct (Qltb (k_last s1) (k_now s1)); cbn; destruct (Qeqb _ 0); reflexivity.
Qed.

(** User [u] starts. *)
Lemma start_ok s u v t l due :
  KI s -> nth_error (k_users s) u = Some v -> u_stat v = UInit t -> k_urgent s = UStart u :: l ->
  KI (set_ustat (add_user (set_urgent s l) u) u (UWait due)).
Proof.
  intros (K & HR & HC) Hu Hs El. unfold add_user. rewrite add_rate_set_ustat.
  assert (Hin : forall e, In e l -> In e (k_urgent s)) by (intros e He; rewrite El; right; exact He).
  pose proof (nth_lt _ _ _ Hu) as Hlen.
  assert (Hna : ~ In u (k_active s)).
  { intro H. destruct (kb_active s K u H) as (w & d & E1 & E2). congruence. }
  cbn [k_active set_urgent].
  assert (RO : forall x, rate_of (set_ustat (set_active (set_urgent s l) (k_active s ++ [u])) u (UWait due)) x = rate_of s x).
  { intro x. unfold rate_of. cbn. rewrite Hu. destruct (Nat.eq_dec u x) as [->|Hn].
    - rewrite upd_same by exact Hlen. rewrite Hu. reflexivity.
    - rewrite upd_other by exact Hn. reflexivity. }
  apply add_rate_KI.
  - constructor; cbn [set_active set_ustat set_urgent k_last k_now k_cap k_active k_users k_checks k_urgent k_halt]; rewrite ?Hu; try apply K.
    + 
      rewrite <- (rev_involutive (k_active s ++ [u])). apply NoDup_rev. rewrite rev_app_distr. cbn. constructor.
      * rewrite <- in_rev. exact Hna.
      * apply NoDup_rev. apply K.
    + intros x Hx. apply in_app_or in Hx. destruct Hx as [Hx|[<-|[]]].
      * assert (u <> x) by (intros ->; contradiction). rewrite upd_other by assumption. apply (kb_active s K x Hx).
      * rewrite upd_same by exact Hlen. eexists _, _. split; [reflexivity|]. cbn. reflexivity.
    + intros x w d' Hx Hw. apply nth_upd in Hx. destruct Hx as [(-> & -> & _)|(Hn & Hx)]; [left; apply in_or_app; right; left; reflexivity|].
      destruct (kb_wait s K x w d' Hx Hw) as [H|H]; [left; apply in_or_app; auto|right].
      rewrite El in H. destruct H as [H|H]; [discriminate|exact H].
    + intros e He. pose proof (kb_urg s K e (Hin e He)) as R. destruct e as [x|q|q|x [|]]; cbn in *; rewrite ?Hu, ?upd_length; try exact R.
      destruct R as (R1 & w & R2 & R3). assert (Hn : u <> x).
      { intros <-. assert (w = v) by congruence. subst w. apply (R3 t). exact Hs. }
      split; [intro Hx; apply in_app_or in Hx; destruct Hx as [Hx|[Hx|[]]]; congruence|].
      exists w. rewrite upd_other by exact Hn. auto.
    + intros x w Hx. apply nth_upd in Hx. destruct Hx as [(-> & -> & _)|(Hn & Hx)]; [cbn|]; eapply (kb_rates s K); eassumption.
    + intros q Hq. destruct (kb_cinit s K q Hq) as (l1 & l2 & E1 & E2).
      rewrite E1 in El. destruct l1 as [|e1 l1]; cbn in El; [discriminate|]. injection El as Ee El.
      exists l1, l2. split; [auto|]. intro H. apply E2. right. exact H.
    + intros x w t' Hx Hw. apply nth_upd in Hx. destruct Hx as [(-> & -> & _)|(Hn & Hx)]; [discriminate|].
      destruct (kb_uinit s K x w t' Hx Hw) as (l1 & l2 & E1 & E2).
      rewrite E1 in El. destruct l1 as [|e1 l1]; cbn in El; injection El as Ee El; [congruence|].
      exists l1, l2. split; [auto|]. intros c H. apply (E2 c). right. exact H.
  - intros _. unfold chk in *. cbn. destruct (k_checking s) as [q|]; [|exact HC].
    destruct HC as (A & B & C & D). split; [exact A|]. split; [intro H; apply B, Hin, H|]. split; [exact C|exact D].
  - unfold net_flow. rewrite (map_ext _ _ RO). cbn [k_active set_active k_rate set_ustat set_urgent].
    change (rate_of (set_urgent s l) u) with (rate_of s u).
    rewrite map_app, Qsum_app. unfold net_flow in HR. cbn [map Qsum fold_right]. rewrite HR. unfold Qsum. cbn. ring.
Qed.

(** Ending a user that a check already took out. *)
Lemma end_told_ok s u v d l :
  KI s -> nth_error (k_users s) u = Some v -> u_stat v = UWait d -> k_urgent s = UInt u Limit :: l ->
  KI (set_ustat (set_urgent s l) u UEnd).
Proof.
  intros (K & HR & HC) Hu Hs El.
  assert (Hin : forall e, In e l -> In e (k_urgent s)) by (intros e He; rewrite El; right; exact He).
  pose proof (nth_lt _ _ _ Hu) as Hlen.
  assert (Hna : ~ In u (k_active s)).
  { assert (H : In (UInt u Limit) (k_urgent s)) by (rewrite El; left; reflexivity). apply (kb_urg s K) in H. apply H. }
  assert (RO : forall x, rate_of (set_ustat (set_urgent s l) u UEnd) x = rate_of s x).
  { intro x. unfold rate_of. cbn. rewrite Hu. destruct (Nat.eq_dec u x) as [->|Hn].
    - rewrite upd_same by exact Hlen. rewrite Hu. reflexivity.
    - rewrite upd_other by exact Hn. reflexivity. }
  split; [|split].
  - constructor; cbn [set_active set_ustat set_urgent k_last k_now k_cap k_active k_users k_checks k_urgent k_halt]; rewrite ?Hu; try apply K.
    + intros x Hx. assert (u <> x) by (intros ->; contradiction). rewrite upd_other by assumption. apply (kb_active s K x Hx).
    + intros x w d' Hx Hw. apply nth_upd in Hx. destruct Hx as [(-> & -> & _)|(Hn & Hx)]; [discriminate|].
      destruct (kb_wait s K x w d' Hx Hw) as [H|H]; [left; exact H|right].
      rewrite El in H. destruct H as [H|H]; [congruence|exact H].
    + intros e He. pose proof (kb_urg s K e (Hin e He)) as R. destruct e as [x|q|q|x [|]]; cbn in *; rewrite ?Hu, ?upd_length; try exact R.
      destruct R as (R1 & w & R2 & R3). split; [exact R1|].
      destruct (Nat.eq_dec u x) as [<-|Hn].
      * rewrite upd_same by exact Hlen. eexists. split; [reflexivity|]. cbn. discriminate.
      * exists w. rewrite upd_other by exact Hn. auto.
    + intros x w Hx. apply nth_upd in Hx. destruct Hx as [(-> & -> & _)|(Hn & Hx)]; [cbn|]; eapply (kb_rates s K); eassumption.
    + intros q Hq. destruct (kb_cinit s K q Hq) as (l1 & l2 & E1 & E2).
      rewrite E1 in El. destruct l1 as [|e1 l1]; cbn in El; [discriminate|]. injection El as Ee El.
      exists l1, l2. split; [auto|]. intro H. apply E2. right. exact H.
    + intros x w t' Hx Hw. apply nth_upd in Hx. destruct Hx as [(-> & -> & _)|(Hn & Hx)]; [discriminate|].
      destruct (kb_uinit s K x w t' Hx Hw) as (l1 & l2 & E1 & E2).
      rewrite E1 in El. destruct l1 as [|e1 l1]; cbn in El; injection El as Ee El; [congruence|].
      exists l1, l2. split; [auto|]. intros c H. apply (E2 c). right. exact H.
  - unfold net_flow. rewrite (map_ext _ _ RO). exact HR.
  - unfold chk in *. cbn. destruct (k_checking s) as [q|]; [|exact HC].
    destruct HC as (A & B & C & D). split; [exact A|]. split; [intro H; apply B, Hin, H|]. split; [exact C|exact D].
Qed.

(** Dropping an urgent event that has no effect. *)
Lemma drop_ok s e l :
  KI s -> k_urgent s = e :: l ->
  (forall p, e = CStart p -> nth_error (k_checks s) p <> Some CkInit) ->
  (forall u, e = UStart u -> forall v t, nth_error (k_users s) u = Some v -> u_stat v <> UInit t) ->
  (forall u, e = UInt u Limit -> forall v d, nth_error (k_users s) u = Some v -> u_stat v <> UWait d) ->
  KI (set_urgent s l).
Proof.
  intros (K & HR & HC) El H1 H2 H3.
  assert (Hin : forall e, In e l -> In e (k_urgent s)) by (intros e0 He; rewrite El; right; exact He).
  split; [|split].
  - constructor; cbn [set_urgent k_last k_now k_cap k_active k_users k_checks k_urgent k_halt]; try apply K.
    + intros x w d' Hx Hw. destruct (kb_wait s K x w d' Hx Hw) as [H|H]; [left; exact H|right].
      rewrite El in H. destruct H as [H|H]; [|exact H]. exfalso. apply (H3 x H w d' Hx Hw).
    + intros e0 He. apply (kb_urg s K e0 (Hin e0 He)).
    + intros q Hq. destruct (kb_cinit s K q Hq) as (l1 & l2 & E1 & E2).
      rewrite E1 in El. destruct l1 as [|e1 l1]; cbn in El; injection El as Ee El; [exfalso; apply (H1 q (eq_sym Ee) Hq)|].
      exists l1, l2. split; [auto|]. intro H. apply E2. right. exact H.
    + intros x w t' Hx Hw. destruct (kb_uinit s K x w t' Hx Hw) as (l1 & l2 & E1 & E2).
      rewrite E1 in El. destruct l1 as [|e1 l1]; cbn in El; injection El as Ee El; [exfalso; apply (H2 x (eq_sym Ee) w t' Hx Hw)|].
      exists l1, l2. split; [auto|]. intros c H. apply (E2 c). right. exact H.
  - exact HR.
  - unfold chk in *. cbn. destruct (k_checking s) as [q|]; [|exact HC].
    destruct HC as (A & B & C & D). split; [exact A|]. split; [intro H; apply B, Hin, H|]. split; [exact C|exact D].
Qed.

(** A check process starts. *)
Lemma wait_nonneg s : KB s -> ~ k_rate s == 0 -> Qltb (((if Qltb 0 (k_rate s) then k_cap s else 0) - cur_level s) / k_rate s) 0 = false.
Proof.
  intros K E. pose proof (kb_low s K) as Hlo. pose proof (kb_high s K) as Hhi. apply Qltb_ge.
  set (w := ((if Qltb 0 (k_rate s) then k_cap s else 0) - cur_level s) / k_rate s).
  assert (Ew : w * k_rate s == (if Qltb 0 (k_rate s) then k_cap s else 0) - cur_level s) by (unfold w; field; exact E).
  destruct (Qlt_le_dec w 0) as [Hw|Hw]; [exfalso|exact Hw]. destruct (Qltb 0 (k_rate s)) eqn:Eb; qbool.
  - assert (w * k_rate s < 0) by nra. lra.
  - assert (k_rate s < 0) by lra. assert (0 < w * k_rate s) by nra. lra.
Qed.
Lemma cstart_ok s p l : KI s -> k_urgent s = CStart p :: l -> okstep s (check_start (set_urgent s l) p).
Proof.
  intros (K & HR & HC) El. left. unfold check_start. cbn [k_rate k_cap set_urgent k_now].
  assert (Hin : forall e, In e l -> In e (k_urgent s)) by (intros e0 He; rewrite El; right; exact He).
  assert (Hp : (p < length (k_checks s))%nat).
  { assert (H : In (CStart p) (k_urgent s)) by (rewrite El; left; reflexivity). apply (kb_urg s K) in H. exact H. }
  assert (Hl : k_urgent s = l \/ exists e, k_urgent s = e :: l /\ (e = CStart p \/ e = CInt p)) by eauto.
  pose proof (kb_low s K) as Hlo. pose proof (kb_high s K) as Hhi.
  change (cur_level (set_urgent s l)) with (cur_level s).
  destruct (Qeqb (k_rate s) 0) eqn:E; qbool.
  - split; [apply set_ckstat_KB; [exact K|discriminate|discriminate|exact Hl]|]. split; [exact HR|].
    apply chk_other; try assumption. unfold chk in HC. destruct (k_checking s) as [q|]; [|discriminate]. tauto.
  - set (w := ((if Qltb 0 (k_rate s) then k_cap s else 0) - cur_level s) / k_rate s).
    assert (Ew : w * k_rate s == bound s - cur_level s) by (unfold w, bound; field; exact E).
    assert (W : 0 <= w).
    { destruct (Qlt_le_dec w 0) as [Hw|Hw]; [exfalso|exact Hw]. unfold bound in Ew.
      destruct (Qltb 0 (k_rate s)) eqn:Eb; qbool.
      - assert (w * k_rate s < 0) by nra. lra.
      - assert (k_rate s < 0) by lra. assert (0 < w * k_rate s) by nra. lra. }
    destruct (Qltb w 0) eqn:Ew0; [qbool; lra|]. clear Ew0.
    split; [apply set_ckstat_KB; [exact K|discriminate| |exact Hl]|].
    + intros d Hd. injection Hd as <-. lra.
    + split; [exact HR|]. destruct (option_map (Nat.eqb p) (k_checking s)) as [[|]|] eqn:Eo.
      * destruct (k_checking s) as [q|] eqn:Ec; [|discriminate]. cbn in Eo. injection Eo as Eo. apply Nat.eqb_eq in Eo. subst q.
        unfold chk in *. cbn. rewrite Ec in *. destruct HC as (A & B & C & D). split; [exact A|].
        split; [intro H; apply B, Hin, H|]. rewrite upd_length. split; [exact C|]. right.
        exists (k_now s + w). rewrite upd_same by exact C. split; [reflexivity|].
        unfold L. cbn. change (bound (set_ckstat (set_urgent s l) p (CkWait (k_now s + w)))) with (bound s).
        unfold cur_level in Ew. lra.
      * apply chk_other; try assumption. destruct (k_checking s) as [q|]; [|discriminate]. cbn in Eo.
        injection Eo as Eo. apply Nat.eqb_neq in Eo. congruence.
      * apply chk_other; try assumption. destruct (k_checking s); [discriminate|]. discriminate.
Qed.

Lemma add_user_not_halted s u v t l :
  KI s -> nth_error (k_users s) u = Some v -> u_stat v = UInit t -> k_urgent s = UStart u :: l ->
  halted (add_user (set_urgent s l) u) = false.
Proof.
  intros K Hu Hs El. destruct (start_ok s u v t l None K Hu Hs El) as (K1 & _).
  apply kb_live in K1. unfold halted. cbn in K1. rewrite K1. reflexivity.
Qed.

Lemma urgent_ok s e l : KI s -> k_urgent s = e :: l -> okstep s (do_urgent (set_urgent s l) e).
Proof.
  intros KK El. pose proof KK as (K & HR & HC). destruct e as [u|p|p|u c]; cbn [do_urgent].
  - unfold user_start. cbn [k_users set_urgent k_now].
    destruct (nth_error (k_users s) u) as [v|] eqn:Hu.
    + destruct (u_stat v) as [t|t|] eqn:Hs.
      * rewrite (add_user_not_halted s u v t l KK Hu Hs El). destruct t as [d|].
        -- destruct (Qltb d 0) eqn:Ed.
           ++ right. exists RNegDelay. split; [reflexivity|]. qbool. cbn. eauto 6.
           ++ left. eapply start_ok; eassumption.
        -- left. eapply start_ok; eassumption.
      * left. eapply drop_ok; [exact KK|exact El|discriminate| |discriminate].
        intros u' E v' t' Hv Hs'. injection E as <-. congruence.
      * left. eapply drop_ok; [exact KK|exact El|discriminate| |discriminate].
        intros u' E v' t' Hv Hs'. injection E as <-. congruence.
    + left. eapply drop_ok; [exact KK|exact El|discriminate| |discriminate].
      intros u' E v' t' Hv Hs'. injection E as <-. congruence.
  - apply cstart_ok; assumption.
  - cbn [k_checks set_urgent]. destruct (nth_error (k_checks s) p) as [[|d|]|] eqn:Hp.
    + exfalso. destruct (kb_cinit s K p Hp) as (l1 & l2 & E1 & E2). rewrite E1 in El.
      destruct l1 as [|e1 l1]; cbn in El; injection El as Ee El; [discriminate|]. apply E2. left. exact Ee.
    + apply finally_ok; [exact KK| |eauto]. exists d. split; [exact Hp|]. right. intro Hc.
      unfold chk in HC. rewrite Hc in HC. destruct HC as (_ & B & _). apply B. rewrite El. left. reflexivity.
    + left. eapply drop_ok; [exact KK|exact El|discriminate|discriminate|discriminate].
    + left. eapply drop_ok; [exact KK|exact El|discriminate|discriminate|discriminate].
  - cbn [k_users set_urgent]. destruct (nth_error (k_users s) u) as [v|] eqn:Hu.
    + destruct (u_stat v) as [t|t|] eqn:Hs.
      * exfalso. destruct (kb_uinit s K u v t Hu Hs) as (l1 & l2 & E1 & E2). rewrite E1 in El.
        destruct l1 as [|e1 l1]; cbn in El; injection El as Ee El; [discriminate|]. apply (E2 c). left. exact Ee.
      * destruct c.
        -- destruct (in_dec Nat.eq_dec u (k_active s)) as [Ha|Ha].
           ++ left. eapply remove_ok; eauto.
           ++ right. exists RNotActive. unfold remove_user. cbn [k_active set_ustat set_urgent].
              destruct (existsb (Nat.eqb u) (k_active s)) eqn:Ee.
              ** exfalso. apply existsb_exists in Ee. destruct Ee as (x & Hx & Hx2). apply Nat.eqb_eq in Hx2. congruence.
              ** split; [reflexivity|]. cbn. eauto.
        -- left. eapply end_told_ok; eassumption.
      * left. eapply drop_ok; [exact KK|exact El|discriminate|discriminate|].
        intros u' E v' d' Hv Hs'. injection E as <- ->. congruence.
    + left. eapply drop_ok; [exact KK|exact El|discriminate|discriminate|].
      intros u' E v' d' Hv Hs'. injection E as <- ->. congruence.
Qed.

Lemma new_user_ok s r t : KI s -> ~ r == 0 ->
  KI (push_urgent (mkK (k_cap s) (k_err_empty s) (k_err_full s) (k_now s) (k_level s) (k_rate s) (k_last s)
              (k_active s) (k_checking s) (k_users s ++ [mkU r (UInit t)]) (k_checks s) (k_urgent s) (k_halt s) (k_quant s))
              [UStart (length (k_users s))]).
Proof.
  intros (K & HR & HC) Hr.
  assert (Hact : forall u, In u (k_active s) -> (u < length (k_users s))%nat).
  { intros u Hu. destruct (kb_active s K u Hu) as (v & d & E & _). apply nth_lt in E. exact E. }
  split; [|split].
  - constructor; cbn [push_urgent k_last k_now k_cap k_active k_users k_checks k_urgent k_halt]; try apply K.
    + intros u Hu. rewrite nth_error_app1 by (apply Hact; exact Hu). apply (kb_active s K u Hu).
    + intros u v d Hu Hs. apply nth_app_last in Hu. destruct Hu as [Hu|[_ ->]]; [|discriminate].
      destruct (kb_wait s K u v d Hu Hs) as [H|H]; [auto|]. right. apply in_or_app. auto.
    + intros e He. apply in_app_or in He. destruct He as [He|[<-|[]]].
      * pose proof (kb_urg s K e He) as R. destruct e as [x|q|q|x [|]]; cbn in *; rewrite ?app_length; try lia.
        destruct R as (R1 & w & R2 & R3). split; [exact R1|]. exists w. split; [|exact R3].
        rewrite nth_error_app1; [exact R2|]. apply nth_lt in R2. exact R2.
      * cbn. rewrite app_length. cbn. lia.
    + intros u v Hu. apply nth_app_last in Hu. destruct Hu as [Hu|[_ ->]]; [eapply (kb_rates s K); eassumption|exact Hr].
    + intros p Hp. destruct (kb_cinit _ K p Hp) as (l1 & l2 & E1 & E2). eexists l1, (l2 ++ _). rewrite E1, <- app_assoc. split; [reflexivity|auto].
    + intros u v t' Hu Hs. apply nth_app_last in Hu. destruct Hu as [Hu|[-> _]].
      * destruct (kb_uinit _ K u v t' Hu Hs) as (l1 & l2 & E1 & E2). eexists l1, (l2 ++ _). rewrite E1, <- app_assoc. split; [reflexivity|auto].
      * exists (k_urgent s), []. split; [reflexivity|]. intros c Hc. apply (kb_urg s K) in Hc. destruct c; cbn in Hc; [lia|].
        destruct Hc as (_ & w & R2 & _). apply nth_lt in R2. lia.
  - unfold net_flow in *. cbn [push_urgent k_rate k_active].
    erewrite map_ext_in; [exact HR|]. intros u Hu. unfold rate_of. cbn. rewrite nth_error_app1; [reflexivity|apply Hact; exact Hu].
  - unfold chk in *. cbn. destruct (k_checking s) as [q|]; [|exact HC].
    destruct HC as (A & B & C & D). split; [exact A|]. split; [|split; [exact C|exact D]].
    intro H. apply in_app_or in H. destruct H as [H|[H|[]]]; [auto|discriminate].
Qed.

Lemma not_before_users t s u v d : not_before t s = true -> nth_error (k_users s) u = Some v -> u_stat v = UWait (Some d) -> t <= d.
Proof.
  intros H Hu Hs. apply andb_prop in H. destruct H as [H _]. rewrite forallb_forall in H.
  specialize (H v (nth_error_In _ _ Hu)). rewrite Hs in H. qbool. exact H.
Qed.
Lemma not_before_checks t s p d : not_before t s = true -> nth_error (k_checks s) p = Some (CkWait d) -> t <= d.
Proof.
  intros H Hp. apply andb_prop in H. destruct H as [_ H]. rewrite forallb_forall in H.
  specialize (H _ (nth_error_In _ _ Hp)). cbn in H. qbool. exact H.
Qed.

Lemma advance_ok s t : KI s -> k_now s <= t -> not_before t s = true -> k_urgent s = [] ->
  KI (mkK (k_cap s) (k_err_empty s) (k_err_full s) t (k_level s) (k_rate s) (k_last s)
            (k_active s) (k_checking s) (k_users s) (k_checks s) (k_urgent s) (k_halt s) (k_quant s)).
Proof.
  intros (K & HR & HC) Ht Hb Hu.
  pose proof (kb_low s K) as Hlo. pose proof (kb_high s K) as Hhi. pose proof (kb_cap s K) as Hc0. pose proof (kb_time s K) as Hti.
  assert (B : 0 <= L s t /\ L s t <= k_cap s).
  { unfold chk in HC. destruct (k_checking s) as [p|].
    - destruct HC as (A & _ & _ & [D|(d & D1 & D2)]).
      + exfalso. destruct (kb_cinit s K p D) as (l1 & l2 & E & _). rewrite Hu in E. destruct l1; discriminate.
      + pose proof (not_before_checks t s p d Hb D1) as Htd.
        unfold bound, L, cur_level in *. destruct (Qltb 0 (k_rate s)) eqn:Eb; qbool.
        * split; [|]; nra.
        * assert (k_rate s < 0) by lra. split; nra.
    - unfold L, cur_level in *. rewrite HC in *. split; lra. }
  split; [|split].
  - constructor; cbn [k_last k_now k_cap k_active k_users k_checks k_urgent k_halt]; try apply K.
    + lra.
    + apply B.
    + apply B.
    + intros p d Hp. eapply not_before_checks; eassumption.
  - exact HR.
  - unfold chk in *. cbn. destruct (k_checking s) as [q|]; [|exact HC].
    destruct HC as (A & B' & C & D). split; [exact A|]. split; [exact B'|]. split; [exact C|exact D].
Qed.

Lemma set_urgent_same s : set_urgent s (k_urgent s) = s.
Proof. destruct s; reflexivity. Qed.

Lemma kstep_ok s o s' : KI s -> kstep s o = Some s' -> okstep s s'.
Proof.
  intros KK H. pose proof KK as (K & HR & HC). unfold kstep in H. rewrite (halted_false _ (kb_live _ K)) in H.
  destruct o as [r t|r t|u| | |u|p|t].
  - destruct (Qleb r 0) eqn:E; [discriminate|]. qbool. injection H as <-. left. apply new_user_ok; [exact KK|lra].
  - destruct (Qleb r 0) eqn:E; [discriminate|]. qbool. injection H as <-. left. apply new_user_ok; [exact KK|lra].
  - destruct (alive s u) eqn:E; [|discriminate]. injection H as <-. left. split; [|split].
    + apply push_urgent_KB; [exact K|]. intros e [<-|[]]. cbn. unfold alive in E.
      destruct (nth_error (k_users s) u) as [v|] eqn:Hu; [|discriminate]. apply nth_lt in Hu. exact Hu.
    + exact HR.
    + unfold chk in *. cbn. destruct (k_checking s) as [q|]; [|exact HC].
      destruct HC as (A & B & C & D). split; [exact A|]. split; [|split; [exact C|exact D]].
      intro Hi. apply in_app_or in Hi. destruct Hi as [Hi|[Hi|[]]]; [auto|discriminate].
  - injection H as <-. left. split; [apply set_level_KB; exact K|]. split.
    + rewrite set_level_flow. pose proof (set_level_fields s) as (_ & _ & -> & _). exact HR.
    + apply set_level_chk; [apply K|exact HC].
  - destruct (k_urgent s) as [|e l] eqn:E; [discriminate|]. injection H as <-. apply urgent_ok; assumption.
  - destruct (k_urgent s) eqn:E; [|discriminate]. unfold fire_user in H.
    destruct (nth_error (k_users s) u) as [v|] eqn:Hu; [|discriminate].
    destruct (u_stat v) as [|[d|]|] eqn:Hs; try discriminate. destruct (Qeqb d (k_now s)) eqn:Ed; [|discriminate].
    injection H as <-. left. rewrite <- (set_urgent_same s). eapply remove_ok; [exact KK|exact Hu|exact Hs| |auto].
    destruct (kb_wait s K u v _ Hu Hs) as [Ha|Ha]; [exact Ha|]. rewrite E in Ha. destruct Ha.
  - destruct (k_urgent s) eqn:E; [|discriminate]. unfold fire_check in H.
    destruct (nth_error (k_checks s) p) as [[|d|]|] eqn:Hp; try discriminate.
    destruct (Qeqb d (k_now s)) eqn:Ed; [|discriminate]. qbool.
    injection H as <-. rewrite <- (set_urgent_same s) at 2. apply finally_ok; [exact KK| |auto]. exists d. auto.
  - destruct (k_urgent s) as [|e l] eqn:E; [|discriminate].
    destruct (Qleb (k_now s) t && not_before t s) eqn:E2; [|discriminate]. apply andb_prop in E2. destruct E2 as [E2 E3].
    qbool. injection H as <-. left. rewrite <- E. apply advance_ok; assumption.
Qed.

(** *** Runs *)
Lemma kinit_KI cap lvl ee ef t0 s0 : kinit cap lvl ee ef t0 = Some s0 -> lvl <= cap -> KI s0.
Proof.
  unfold kinit. destruct (Qltb lvl 0 || Qltb cap 0) eqn:E; [discriminate|]. intros H Hc. injection H as <-.
  apply orb_false_iff in E. destruct E as [E1 E2]. qbool.
  split; [|split].
  - constructor; cbn; try (unfold cur_level; cbn; lra); try lra; try constructor.
    all: try (intros; match goal with H : nth_error [] ?n = _ |- _ => destruct n; discriminate | H : False |- _ => destruct H end).
  - unfold net_flow, Qsum. cbn. reflexivity.
  - unfold chk. cbn. reflexivity.
Qed.

Definition good (s : kst) : Prop :=
  k_last s <= k_now s /\ 0 <= cur_level s /\ cur_level s <= k_cap s /\
  lhist_ok (k_now s) (k_quant s) /\ newest s /\ (k_halt s = None -> KI s).

Lemma kinit_good cap lvl ee ef t0 s0 : kinit cap lvl ee ef t0 = Some s0 -> lvl <= cap -> good s0.
Proof.
  intros H Hc. pose proof (kinit_KI _ _ _ _ _ _ H Hc) as KK. pose proof KK as (K & _).
  unfold good. split; [apply K|]. split; [apply K|]. split; [apply K|].
  assert (E : k_quant s0 = [(t0, lvl)] /\ k_now s0 = t0 /\ k_last s0 = t0 /\ k_level s0 = lvl).
  { unfold kinit in H. destruct (_ || _); [discriminate|]. injection H as <-. auto. }
  destruct E as (E1 & E2 & E3 & E4). split; [|split; [|auto]].
  - rewrite E1, E2. split; [exact I|]. split; [exact I|]. lra.
  - exists t0, lvl, []. rewrite E1, E3, E4. split; [reflexivity|]. split; reflexivity.
Qed.

Lemma kstep_halted s o : halted s = true -> kstep s o = None.
Proof. unfold kstep. intros ->. reflexivity. Qed.

Lemma kstep_good s o s' : good s -> kstep s o = Some s' -> good s' /\ k_cap s' = k_cap s /\
   k_err_empty s' = k_err_empty s /\ k_err_full s' = k_err_full s /\ k_now s <= k_now s' /\
   (exists pre, k_quant s' = pre ++ k_quant s /\ Forall (fun p => fst p = k_now s /\ snd p == cur_level s) pre).
Proof.
  intros (Ht & Hlo & Hhi & Hq & Hn & HK) H.
  assert (Hh : k_halt s = None).
  { unfold kstep, halted in H. destruct (k_halt s); [discriminate|reflexivity]. }
  specialize (HK Hh). pose proof (kstep_ok s o s' HK H) as OK.
  destruct (kstep_level s o s' Ht H) as [A|(t & -> & Hle & Hb & Hu & E)].
  - split; [|split; [apply A|split; [apply A|split; [apply A|split; [rewrite (sl_now _ _ A); lra|apply A]]]]].
    split; [apply A|]. rewrite (sl_cur _ _ A), (sl_cap _ _ A), (sl_now _ _ A).
    split; [exact Hlo|]. split; [exact Hhi|]. split; [apply (sl_q _ _ A); exact Hq|]. split; [apply A, Hn|].
    intro Hh'. destruct OK as [OK|(r & Hr & _)]; [exact OK|congruence].
  - pose proof (advance_ok s t HK Hle Hb Hu) as K2. rewrite <- E in K2. split.
    + destruct K2 as [K2 K2']. split; [apply K2|]. split; [apply K2|]. split; [apply K2|]. subst s'. cbn.
      split; [eapply lhist_ok_later; eassumption|]. split; [exact Hn|]. intros _. split; assumption.
    + subst s'. cbn. repeat (split; [reflexivity|]). split; [exact Hle|]. exists []. split; [reflexivity|constructor].
Qed.

Lemma kruns_inv (I : kst -> Prop) : (forall s o s', I s -> kstep s o = Some s' -> I s') ->
  forall os s past, I s -> Forall I past -> Forall I (kruns s os past).
Proof.
  intros Hst. induction os as [|o os IH]; intros s past Hs Hp; cbn [kruns]; [constructor; assumption|].
  destruct (kstep s o) as [s'|] eqn:E; [|apply IH; assumption].
  apply IH; [eapply Hst; eassumption|]. constructor; assumption.
Qed.

Lemma kruns_head s os past : exists rest, kruns s os past = krun s os :: rest.
Proof.
  revert s past. induction os as [|o os IH]; intros s past; cbn [kruns]; [eexists; reflexivity|].
  unfold krun. cbn [fold_left]. destruct (kstep s o) as [s'|] eqn:E; apply IH.
Qed.

Lemma continuous_bounds cap lvl ee ef t0 s0 os x :
  kinit cap lvl ee ef t0 = Some s0 -> lvl <= cap -> In x (kruns s0 os []) ->
  0 <= cur_level x /\ cur_level x <= cap.
Proof.
  intros H Hc. assert (E0 : k_cap s0 = cap).
  { unfold kinit in H. destruct (_ || _); [discriminate|]. injection H as <-. reflexivity. }
  assert (F : Forall (fun s => good s /\ k_cap s = cap) (kruns s0 os [])).
  { apply kruns_inv; [|split; [eapply kinit_good; eassumption|exact E0]|constructor].
    intros s o s' (G & Ec) Hs. destruct (kstep_good s o s' G Hs) as (G' & Ec' & _). split; [exact G'|congruence]. }
  intro Hx. rewrite Forall_forall in F. destruct (F x Hx) as ((_ & A & B & _) & Ec). rewrite <- Ec. auto.
Qed.

(** The clock of a reachable state is exact: net flow integrated. *)
Lemma kruns_volume lvl : forall os s past,
  good s -> cur_level s == lvl + volume (s :: past) ->
  cur_level (krun s os) == lvl + volume (kruns s os past).
Proof.
  induction os as [|o os IH]; intros s past G HL; cbn [kruns]; [exact HL|].
  unfold krun. cbn [fold_left]. destruct (kstep s o) as [s'|] eqn:E; [|apply (IH s past); auto].
  apply (IH s' (s :: past)); [apply (kstep_good s o s' G E)|].
  destruct G as (Ht & _ & _ & _ & _ & HK).
  assert (Hh : k_halt s = None).
  { unfold kstep, halted in E. destruct (k_halt s); [discriminate|reflexivity]. }
  destruct (HK Hh) as (_ & HR & _).
  change (volume (s' :: s :: past)) with (net_flow s * (k_now s' - k_now s) + volume (s :: past)).
  destruct (kstep_level s o s' Ht E) as [A|(t & -> & Hle & Hb & Hu & ->)].
  - rewrite (sl_cur _ _ A), (sl_now _ _ A), HL. ring.
  - cbn [k_now]. rewrite <- HR. unfold cur_level in *. cbn [k_level k_rate k_now k_last].
    assert (EQ : k_level s + k_rate s * (t - k_last s) == (k_level s + k_rate s * (k_now s - k_last s)) + k_rate s * (t - k_now s)) by ring.
    rewrite EQ, HL. ring.
Qed.

Lemma continuous_integral cap lvl ee ef t0 s0 os :
  kinit cap lvl ee ef t0 = Some s0 -> lvl <= cap ->
  cur_level (krun s0 os) == lvl + volume (kruns s0 os []).
Proof.
  intros H Hc. apply (kruns_volume lvl os s0 []); [eapply kinit_good; eassumption|].
  unfold kinit in H. destruct (_ || _); [discriminate|]. injection H as <-. unfold cur_level. cbn. ring.
Qed.

(** *** Telling happens only at the limit *)
Lemma told_in s u : In u (told s) <-> In (UInt u Limit) (k_urgent s).
Proof.
  unfold told. rewrite in_flat_map. split.
  - intros (e & He & Hu). destruct e as [x|x|x|x [|]]; cbn in Hu; try (destruct Hu; fail).
    destruct Hu as [<-|[]]. exact He.
  - intro H. exists (UInt u Limit). split; [exact H|]. left. reflexivity.
Qed.
Lemma interrupt_told s : told (interrupt_check s) = told s.
Proof.
  unfold interrupt_check. destruct (k_checking s) as [p|]; [|reflexivity].
  destruct (nth_error (k_checks s) p) as [[| |]|]; unfold told; cbn; rewrite ?flat_map_app; cbn; rewrite ?app_nil_r; reflexivity.
Qed.
Lemma add_rate_told s dr b : told (add_rate s dr b) = told s.
Proof.
  unfold add_rate. destruct b.
  - destruct (halted _); rewrite ?change_rate_told; apply interrupt_told.
  - destruct (halted s); [reflexivity|]. apply change_rate_told.
Qed.
Lemma remove_user_told s u : told (remove_user s u) = told s.
Proof. unfold remove_user. destruct (existsb _ _); [|reflexivity]. rewrite add_rate_told. reflexivity. Qed.
Lemma user_start_told s u : told (user_start s u) = told s.
Proof.
  unfold user_start. destruct (nth_error (k_users s) u) as [v|]; [|reflexivity].
  destruct (u_stat v) as [t| |]; try reflexivity.
  assert (E : told (add_user s u) = told s) by (unfold add_user; rewrite add_rate_told; reflexivity).
  destruct (halted _); [exact E|]. destruct t as [d|]; [destruct (Qltb d 0)|]; exact E.
Qed.


Lemma finally_told s u : KB s -> k_rate s == net_flow s ->
  In u (told (check_finally s)) -> In u (told s) \/ responsible s u.
Proof.
  intros K HR H. destruct (check_finally_cases s K HR) as [(E & _)|(us & Hne & (B1 & B2) & Eus & HH)].
  - left. rewrite E in H. unfold told in *. pose proof (set_level_fields s) as (_ & _ & _ & _ & _ & _ & _ & F8 & _).
    rewrite F8 in H. exact H.
  - assert (HT : told (check_finally s) = told s ++ us).
    { destruct HH as [(_ & ->)|(_ & _ & -> & _)]; [|reflexivity].
      unfold told. cbn. pose proof (set_level_fields s) as (_ & _ & _ & _ & _ & _ & _ & F8 & _).
      rewrite F8, flat_map_app, told_map. reflexivity. }
    rewrite HT in H. apply in_app_or in H. destruct H as [H|H]; [auto|]. right. subst us. unfold responsible, bound in *.
    destruct (Qltb (k_rate s) 0) eqn:Er; qbool.
    + apply filter_In in H. destruct H as [H1 H2]. apply Qltb_lt in H2. split; [exact H1|]. left.
      destruct (Qltb 0 (k_rate s)) eqn:Eb; qbool; [lra|]. auto.
    + apply filter_In in H. destruct H as [H1 H2]. apply Qltb_lt in H2. split; [exact H1|]. right.
      destruct (Qltb 0 (k_rate s)) eqn:Eb; qbool; [|lra]. auto.
Qed.

Lemma kstep_told s o s' u : KI s -> kstep s o = Some s' -> newly_told s s' u -> responsible s u.
Proof.
  intros (K & HR & HC) H (H1 & H2). unfold kstep in H. rewrite (halted_false _ (kb_live _ K)) in H.
  assert (NT : told s' = told s -> responsible s u) by (intro E; rewrite E in H1; contradiction).
  destruct o as [r t|r t|x| | |x|p|t].
  - destruct (Qleb r 0); [discriminate|]. injection H as <-. apply NT. unfold told. cbn. rewrite flat_map_app. cbn. apply app_nil_r.
  - destruct (Qleb r 0); [discriminate|]. injection H as <-. apply NT. unfold told. cbn. rewrite flat_map_app. cbn. apply app_nil_r.
  - destruct (alive s x); [|discriminate]. injection H as <-. apply NT. unfold told. cbn. rewrite flat_map_app. cbn. apply app_nil_r.
  - injection H as <-. apply NT. unfold told. pose proof (set_level_fields s) as (_ & _ & _ & _ & _ & _ & _ & -> & _). reflexivity.
  - destruct (k_urgent s) as [|e l] eqn:E; [discriminate|]. injection H as <-.
    assert (HS : forall y, In y (told (set_urgent s l)) -> In y (told s)).
    { intros y Hy. apply told_in in Hy. apply told_in. rewrite E. right. exact Hy. }
    destruct e as [x|p|p|x c]; cbn [do_urgent] in H1.
    + rewrite user_start_told in H1. exfalso. auto.
    + exfalso. apply H2, HS. unfold check_start in H1. cbn [k_rate k_cap set_urgent] in H1. change (cur_level (set_urgent s l)) with (cur_level s) in H1.
      destruct (Qeqb (k_rate s) 0) eqn:ER; [exact H1|]. apply Qeqb_neq in ER. rewrite (wait_nonneg s K ER) in H1. exact H1.
    + cbn [k_checks set_urgent] in H1. destruct (nth_error (k_checks s) p) as [[|d|]|] eqn:Hp; try (exfalso; apply H2, HS, H1).
      assert (K1 : KB (set_ckstat (set_urgent s l) p CkEnd)) by (apply set_ckstat_KB; [exact K|discriminate|discriminate|eauto]).
      apply (finally_told _ u K1 HR) in H1. destruct H1 as [H1|H1]; [exfalso; apply H2, HS, H1|exact H1].
    + exfalso. apply H2, HS. cbn [k_users set_urgent] in H1. destruct (nth_error (k_users s) x) as [v|]; [|exact H1].
      destruct (u_stat v); try exact H1. destruct c; [|exact H1]. rewrite remove_user_told in H1. exact H1.
  - destruct (k_urgent s) eqn:E; [|discriminate]. unfold fire_user in H.
    destruct (nth_error (k_users s) x) as [v|] eqn:Hu; [|discriminate].
    destruct (u_stat v) as [|[d|]|] eqn:Hs; try discriminate. destruct (Qeqb d (k_now s)) eqn:Ed; [|discriminate].
    injection H as <-. apply NT. rewrite remove_user_told. reflexivity.
  - destruct (k_urgent s) eqn:E; [|discriminate]. unfold fire_check in H.
    destruct (nth_error (k_checks s) p) as [[|d|]|] eqn:Hp; try discriminate.
    destruct (Qeqb d (k_now s)) eqn:Ed; [|discriminate]. injection H as <-.
    rewrite <- (set_urgent_same s) in H1 at 1.
    assert (K1 : KB (set_ckstat (set_urgent s (k_urgent s)) p CkEnd)) by (apply set_ckstat_KB; [exact K|discriminate|discriminate|auto]).
    apply (finally_told _ u K1 HR) in H1. destruct H1 as [H1|H1]; [contradiction|exact H1].
  - destruct (k_urgent s) as [|e l] eqn:E; [|discriminate]. destruct (_ && _); [|discriminate]. injection H as <-.
    apply NT. unfold told. cbn. rewrite E. reflexivity.
Qed.

(** *** Predictions *)
Lemma done_exact s e :
  0 <= cur_level s -> cur_level s <= k_cap s ->
  match time_until_done s e with
  | Some d => ~ e + k_rate s == 0 /\ 0 <= d /\
      cur_level s + (e + k_rate s) * d == (if Qltb 0 (e + k_rate s) then k_cap s else 0) /\
      (forall d', 0 <= d' -> d' < d -> 0 < cur_level s + (e + k_rate s) * d' \/ 0 < e + k_rate s) /\
      (forall d', 0 <= d' -> d' < d -> cur_level s + (e + k_rate s) * d' < k_cap s \/ e + k_rate s < 0)
  | None => e + k_rate s == 0
  end.
Proof.
  intros Hlo Hhi. unfold time_until_done. set (r := e + k_rate s). destruct (Qltb 0 r) eqn:E1; qbool.
  - set (d := (k_cap s - cur_level s) / r).
    assert (Ed : d * r == k_cap s - cur_level s) by (unfold d; field; lra).
    assert (0 <= d) by (destruct (Qlt_le_dec d 0); [exfalso; nra|assumption]).
    split; [lra|]. split; [assumption|]. split; [lra|]. split; [auto|].
    intros d' H1 H2. left. nra.
  - destruct (Qltb r 0) eqn:E2; qbool; [|lra].
    set (d := - cur_level s / r).
    assert (Ed : d * r == - cur_level s) by (unfold d; field; lra).
    assert (0 <= d) by (destruct (Qlt_le_dec d 0); [exfalso; nra|assumption]).
    split; [lra|]. split; [assumption|]. split; [lra|]. split; [|auto].
    intros d' H1 H2. left. nra.
Qed.

(** The running check is due exactly at the predicted time. *)
Lemma deadline_exact s : KI s -> k_urgent s = [] -> ~ k_rate s == 0 ->
  exists p due d, k_checking s = Some p /\ nth_error (k_checks s) p = Some (CkWait due) /\
    time_until_done s 0 = Some d /\ due == k_now s + d.
Proof.
  intros (K & HR & HC) Hu Hr. unfold chk in HC. destruct (k_checking s) as [p|] eqn:Ec; [|contradiction].
  destruct HC as (_ & _ & Hp & [D|(due & D1 & D2)]).
  - exfalso. destruct (kb_cinit s K p D) as (l1 & l2 & E & _). rewrite Hu in E. destruct l1; discriminate.
  - pose proof (done_exact s 0 (kb_low s K) (kb_high s K)) as HD.
    destruct (time_until_done s 0) as [d|] eqn:Ed; [|exfalso; apply Hr; lra].
    destruct HD as (H1 & H2 & H3 & _). exists p, due, d. split; [reflexivity|]. split; [exact D1|]. split; [reflexivity|].
    unfold L, bound, cur_level in *.
    assert (E0 : Qltb 0 (0 + k_rate s) = Qltb 0 (k_rate s)).
    { destruct (Qltb 0 (0 + k_rate s)) eqn:X; destruct (Qltb 0 (k_rate s)) eqn:Y; qbool; try reflexivity; exfalso; lra. }
    rewrite E0 in H3.
    assert (EQ : k_rate s * (due - (k_now s + d)) == 0) by lra.
    destruct (Qeq_dec (due - (k_now s + d)) 0) as [Z|Z]; [lra|].
    exfalso. apply Hr. destruct (Qmult_integral _ _ EQ); [assumption|contradiction].
Qed.

(** When the limit is reached and nothing urgent is left, time cannot pass and
    the running check can fire; it tells exactly the responsible users. *)
Lemma limit_tells s : KI s -> k_urgent s = [] -> at_limit s ->
  (forall t, k_now s < t -> kstep s (KAdvance t) = None) /\
  exists p s', kstep s (KFireCheck p) = Some s' /\
    (forall u, In u (told s') <-> responsible s u) /\
    (k_halt s' = Some (if Qltb (k_rate s) 0 then REmpty else RFull) /\
       (if Qltb (k_rate s) 0 then k_err_empty s else k_err_full s) = true
     \/ KI s' /\ (forall u, In u (k_active s') <-> In u (k_active s) /\ ~ responsible s u) /\
        (if Qltb (k_rate s) 0 then k_err_empty s else k_err_full s) = false).
Proof.
  intros KK Hu (Hr & HL). pose proof KK as (K & HR & HC).
  destruct (deadline_exact s KK Hu Hr) as (p & due & d & Ec & Hp & Hd & Hdue).
  pose proof (done_exact s 0 (kb_low s K) (kb_high s K)) as HD. rewrite Hd in HD. destruct HD as (H1 & H2 & H3 & _).
  assert (E0 : Qltb 0 (0 + k_rate s) = Qltb 0 (k_rate s)).
  { destruct (Qltb 0 (0 + k_rate s)) eqn:X; destruct (Qltb 0 (k_rate s)) eqn:Y; qbool; try reflexivity; exfalso; lra. }
  rewrite E0 in H3. unfold bound in HL.
  assert (Z : d == 0).
  { assert (EQ : k_rate s * d == 0) by lra. destruct (Qmult_integral _ _ EQ); [contradiction|assumption]. }
  assert (Hdn : due == k_now s) by lra.
  split.
  - intros t Ht. unfold kstep. rewrite (halted_false _ (kb_live _ K)), Hu.
    destruct (Qleb (k_now s) t && not_before t s) eqn:E; [|reflexivity]. exfalso.
    apply andb_prop in E. destruct E as [_ E]. pose proof (not_before_checks t s p due E Hp). lra.
  - exists p. unfold kstep. rewrite (halted_false _ (kb_live _ K)), Hu. unfold fire_check. rewrite Hp.
    assert (E : Qeqb due (k_now s) = true) by (apply Qeqb_eq; exact Hdn). rewrite E. clear E.
    eexists. split; [reflexivity|].
    set (s1 := set_ckstat s p CkEnd).
    assert (K1 : KB s1).
    { unfold s1. rewrite <- (set_urgent_same s). apply set_ckstat_KB; [exact K|discriminate|discriminate|auto]. }
    assert (RESP : forall u, In u (if Qltb (k_rate s1) 0 then active_gets s1 else active_puts s1) <-> responsible s u).
    { intro u. unfold responsible. change (k_rate s1) with (k_rate s).
      change (active_gets s1) with (active_gets s). change (active_puts s1) with (active_puts s).
      destruct (Qltb (k_rate s) 0) eqn:Er; qbool.
      - unfold active_gets. rewrite filter_In, Qltb_lt. destruct (Qltb 0 (k_rate s)) eqn:Eb; qbool; [lra|].
        split; [intros [A B]; auto|]. intros [A [(B1 & B2 & B3)|(B1 & _)]]; [auto|lra].
      - unfold active_puts. rewrite filter_In, Qltb_lt. destruct (Qltb 0 (k_rate s)) eqn:Eb; qbool; [|exfalso; lra].
        split; [intros [A B]; auto|]. intros [A [(B1 & _)|(B1 & B2 & B3)]]; [lra|auto]. }
    destruct (check_finally_cases s1 K1 HR) as [(E & N1 & N2)|(us & Hne & _ & Eus & HH)].
    + exfalso. destruct (Qltb 0 (k_rate s)) eqn:Eb; qbool.
      * apply N2; [exact Eb|exact HL].
      * apply N1; [change (k_rate s < 0); lra|exact HL].
    + assert (T0 : told s1 = []) by (unfold told; cbn; rewrite Hu; reflexivity).
      change (k_rate s1) with (k_rate s) in *.
      destruct HH as [(HE & Es)|(HK & HA & HT & Es)].
      * split.
        -- intro u. rewrite <- RESP, <- Eus. rewrite Es. unfold told. cbn.
           pose proof (set_level_fields s1) as (_ & _ & _ & _ & _ & _ & _ & F8 & _). rewrite F8.
           rewrite flat_map_app, told_map. cbn. rewrite Hu. reflexivity.
        -- left. rewrite Es. cbn. split; [reflexivity|]. destruct HE as [(E1 & E2 & _ & E3)|(E1 & E2 & _ & E3)];
           change (k_rate s1) with (k_rate s) in E3; destruct (Qltb (k_rate s) 0) eqn:Er; qbool; try (exfalso; lra); exact E2.
      * split; [|right; split; [exact HK|split]].
        -- intro u. rewrite HT, T0. cbn. rewrite Eus. apply RESP.
        -- intro u. rewrite HA. rewrite fold_remove_in by apply K. rewrite Eus. rewrite RESP. reflexivity.
        -- (* with the error flag set it would have halted *)
           destruct (if Qltb (k_rate s) 0 then k_err_empty s else k_err_full s) eqn:Ef; [exfalso|reflexivity].
           assert (Hlive : k_halt (check_finally s1) = None) by apply HK.
           unfold check_finally in Hlive.
           pose proof (set_level_fields s1) as (F1 & F2 & F3 & F4 & F5 & F6 & F7 & F8 & F9 & F10 & F11).
           pose proof (set_level_level s1 (kb_time _ K1)) as Hlv. rewrite F3 in Hlive.
           pose proof (set_level_KB s1 K1) as K2.
           change (k_rate s1) with (k_rate s) in Hlive. change (cur_level s1) with (cur_level s) in Hlv.
           destruct (Qltb (k_rate s) 0) eqn:Er; qbool.
           ++ destruct (Qltb 0 (k_rate s)) eqn:Eb; qbool; [lra|].
              unfold check_empty in Hlive. destruct (Qltb 0 (k_level (set_level s1))) eqn:X; qbool; [lra|].
              rewrite tell_all in Hlive by (intros u Hx; apply active_alive; [exact K2|]; apply filter_In in Hx; tauto).
              rewrite (halted_false (push_urgent _ _)) in Hlive by (cbn; apply K2).
              assert (Y : Qeqb (k_level (set_level s1)) 0 = true) by (apply Qeqb_eq; lra).
              rewrite Y, F10 in Hlive. change (k_err_empty s1) with (k_err_empty s) in Hlive. rewrite Ef in Hlive. cbn in Hlive. discriminate.
           ++ destruct (Qltb 0 (k_rate s)) eqn:Eb; qbool; [|lra].
              unfold check_full in Hlive. rewrite F1 in Hlive. change (k_cap s1) with (k_cap s) in Hlive.
              destruct (Qltb (k_level (set_level s1)) (k_cap s)) eqn:X; qbool; [lra|].
              rewrite tell_all in Hlive by (intros u Hx; apply active_alive; [exact K2|]; apply filter_In in Hx; tauto).
              rewrite (halted_false (push_urgent _ _)) in Hlive by (cbn; apply K2).
              assert (Y : Qeqb (k_level (set_level s1)) (k_cap s) = true) by (apply Qeqb_eq; lra).
              rewrite Y, F11 in Hlive. change (k_err_full s1) with (k_err_full s) in Hlive. rewrite Ef in Hlive. cbn in Hlive. discriminate.
Qed.

(** *** Which errors can occur *)
Definition no_stop (s : kst) : Prop := forall u, ~ In (UInt u Stop) (k_urgent s).
Definition durations_ok (s : kst) : Prop :=
  forall u v d, nth_error (k_users s) u = Some v -> u_stat v = UInit (Some d) -> 0 <= d.
Definition quiet (s s' : kst) : Prop :=
  (forall u, In (UInt u Stop) (k_urgent s') -> In (UInt u Stop) (k_urgent s)) /\
  (forall u v d, nth_error (k_users s') u = Some v -> u_stat v = UInit (Some d) ->
     exists v', nth_error (k_users s) u = Some v' /\ u_stat v' = UInit (Some d)).
Lemma quiet_refl s : quiet s s.
Proof. split; [auto|eauto]. Qed.
Lemma quiet_trans a b c : quiet a b -> quiet b c -> quiet a c.
Proof.
  intros [A1 A2] [B1 B2]. split; [auto|]. intros u v d Hu Hs. destruct (B2 u v d Hu Hs) as (v' & E1 & E2). eauto.
Qed.
Lemma quiet_same s s' : (forall u, In (UInt u Stop) (k_urgent s') -> In (UInt u Stop) (k_urgent s)) ->
  k_users s' = k_users s -> quiet s s'.
Proof. intros H E. split; [exact H|]. rewrite E. eauto. Qed.
Lemma quiet_push s l : (forall u, ~ In (UInt u Stop) l) -> quiet s (push_urgent s l).
Proof.
  intro H. apply quiet_same; [|reflexivity]. intros u Hu. cbn in Hu. apply in_app_or in Hu.
  destruct Hu as [Hu|Hu]; [exact Hu|]. exfalso. apply (H u Hu).
Qed.
Lemma quiet_set_level s : quiet s (set_level s).
Proof.
  pose proof (set_level_fields s) as (_ & _ & _ & _ & _ & F6 & _ & F8 & _). apply quiet_same; [rewrite F8; auto|exact F6].
Qed.
Lemma quiet_set_ustat s u x : (forall d, x <> UInit d) -> quiet s (set_ustat s u x).
Proof.
  intro Hx. split; [auto|]. cbn. intros w v d Hw Hs. destruct (nth_error (k_users s) u) as [v0|] eqn:Hu; [|eauto].
  apply nth_upd in Hw. destruct Hw as [(_ & -> & _)|(_ & Hw)]; [exfalso; apply (Hx (Some d)); exact Hs|eauto].
Qed.
Lemma quiet_interrupt s : quiet s (interrupt_check s).
Proof.
  unfold interrupt_check. destruct (k_checking s) as [p|]; [|apply quiet_refl].
  assert (A : quiet s (push_urgent s [CInt p])) by (apply quiet_push; intros u [H|[]]; discriminate).
  destruct (nth_error (k_checks s) p) as [[| |]|]; try exact A. apply quiet_same; auto.
Qed.
Lemma quiet_change_rate s dr : quiet s (change_rate s dr).
Proof.
  eapply quiet_trans; [apply quiet_set_level|]. unfold change_rate. destruct (Qeqb _ 0); apply quiet_same; auto.
  cbn. intros u Hu. apply in_app_or in Hu. destruct Hu as [Hu|[Hu|[]]]; [exact Hu|discriminate].
Qed.
Lemma quiet_add_rate s dr b : quiet s (add_rate s dr b).
Proof.
  unfold add_rate. set (s1 := if b then _ else _).
  assert (A : quiet s s1) by (destruct b; [apply quiet_interrupt|apply quiet_refl]).
  destruct (halted s1); [exact A|]. eapply quiet_trans; [exact A|apply quiet_change_rate].
Qed.
Lemma quiet_remove_user s u : quiet s (remove_user s u).
Proof.
  unfold remove_user. destruct (existsb _ _); [|apply quiet_same; auto].
  eapply quiet_trans; [|apply quiet_add_rate]. apply quiet_same; auto.
Qed.
Lemma quiet_tell us : forall s, quiet s (tell s us).
Proof.
  induction us as [|u us IH]; intro s; cbn [tell]; [apply quiet_refl|].
  destruct (alive s u); [|apply quiet_same; auto]. eapply quiet_trans; [|apply IH].
  apply quiet_push. intros x [H|[]]. discriminate.
Qed.
Lemma quiet_halt s r : quiet s (set_halt s r).
Proof. apply quiet_same; auto. Qed.
Lemma quiet_check_empty s : quiet s (fst (check_empty s)).
Proof.
  unfold check_empty. destruct (Qltb 0 _); [apply quiet_refl|]. pose proof (quiet_tell (active_gets s) s) as A.
  destruct (halted _); [exact A|]. destruct (_ && _); [eapply quiet_trans; [exact A|apply quiet_halt]|].
  destruct (Qltb _ 0); [eapply quiet_trans; [exact A|apply quiet_halt]|exact A].
Qed.
Lemma quiet_check_full s : quiet s (fst (check_full s)).
Proof.
  unfold check_full. destruct (Qltb _ (k_cap s)); [apply quiet_refl|]. pose proof (quiet_tell (active_puts s) s) as A.
  destruct (halted _); [exact A|]. destruct (_ && _); [eapply quiet_trans; [exact A|apply quiet_halt]|].
  destruct (Qltb (k_cap s) _); [eapply quiet_trans; [exact A|apply quiet_halt]|exact A].
Qed.
Lemma quiet_check_finally s : quiet s (check_finally s).
Proof.
  unfold check_finally. set (X := if Qltb (k_rate (set_level s)) 0 then _ else _).
  assert (B : quiet (set_level s) (fst X)).
  { unfold X. destruct (Qltb _ 0); [apply quiet_check_empty|]. destruct (Qltb 0 _); [apply quiet_check_full|apply quiet_refl]. }
  destruct X as [s1 to_rem]. cbn [fst] in B. pose proof (quiet_trans _ _ _ (quiet_set_level s) B) as C.
  destruct (halted s1); [exact C|]. destruct to_rem; [exact C|]. eapply quiet_trans; [exact C|].
  eapply quiet_trans; [|apply quiet_add_rate]. apply quiet_same; auto.
Qed.
Lemma quiet_do_urgent s e : quiet s (do_urgent s e).
Proof.
  destruct e as [u|p|p|u c]; cbn [do_urgent].
  - unfold user_start. destruct (nth_error (k_users s) u) as [v|]; [|apply quiet_refl].
    destruct (u_stat v) as [t| |]; try apply quiet_refl.
    assert (A : quiet s (add_user s u)).
    { unfold add_user. eapply quiet_trans; [|apply quiet_add_rate]. apply quiet_same; auto. }
    destruct (halted _); [exact A|]. destruct t as [d|]; [destruct (Qltb d 0)|]; (eapply quiet_trans; [exact A|]);
    [apply quiet_halt|apply quiet_set_ustat; discriminate|apply quiet_set_ustat; discriminate].
  - unfold check_start. destruct (Qeqb _ 0); [apply quiet_same; auto|]. destruct (Qltb _ 0); [|apply quiet_same; auto]. cbn zeta.
    assert (A : quiet s (check_finally (set_ckstat s p CkEnd))) by (eapply quiet_trans; [|apply quiet_check_finally]; apply quiet_same; auto).
    destruct (halted _); [exact A|]. eapply quiet_trans; [exact A|apply quiet_halt].
  - destruct (nth_error (k_checks s) p) as [[| |]|]; try apply quiet_refl; [apply quiet_halt|].
    eapply quiet_trans; [|apply quiet_check_finally]. apply quiet_same; auto.
  - destruct (nth_error (k_users s) u) as [v|]; [|apply quiet_refl].
    destruct (u_stat v); [apply quiet_halt| |apply quiet_refl].
    destruct c; [eapply quiet_trans; [|apply quiet_remove_user]|]; apply quiet_set_ustat; discriminate.
Qed.

Lemma kstep_calm s o s' : kstep s o = Some s' -> no_cancel o -> sane o ->
  no_stop s -> durations_ok s -> no_stop s' /\ durations_ok s'.
Proof.
  intros H Hn Hsane NS DU.
  assert (Q : quiet s s' -> no_stop s' /\ durations_ok s').
  { intros [Q1 Q2]. split; [intros u Hu; apply (NS u), Q1, Hu|].
    intros u v d Hu Hs. destruct (Q2 u v d Hu Hs) as (v' & E1 & E2). eapply DU; eassumption. }
  assert (NEW : forall r t, (match t with Some d => 0 <= d | None => True end) ->
    s' = push_urgent (mkK (k_cap s) (k_err_empty s) (k_err_full s) (k_now s) (k_level s) (k_rate s) (k_last s)
              (k_active s) (k_checking s) (k_users s ++ [mkU r (UInit t)]) (k_checks s) (k_urgent s) (k_halt s) (k_quant s))
              [UStart (length (k_users s))] -> no_stop s' /\ durations_ok s').
  { intros r t Ht ->. split.
    - intros u Hu. cbn in Hu. apply in_app_or in Hu. destruct Hu as [Hu|[Hu|[]]]; [apply (NS u Hu)|discriminate].
    - intros u v d Hu Hs. cbn in Hu. apply nth_app_last in Hu. destruct Hu as [Hu|[_ ->]]; [eapply DU; eassumption|].
      cbn in Hs. injection Hs as ->. exact Ht. }
  unfold kstep in H. destruct (halted s); [discriminate|]. destruct o as [r t|r t|u| | |u|p|t].
  - destruct (Qleb r 0); [discriminate|]. injection H as <-. eapply NEW; [|reflexivity]. destruct t; exact Hsane.
  - destruct (Qleb r 0); [discriminate|]. injection H as <-. eapply NEW; [|reflexivity]. destruct t; exact Hsane.
  - destruct Hn.
  - injection H as <-. apply Q, quiet_set_level.
  - destruct (k_urgent s) as [|e l] eqn:E; [discriminate|]. injection H as <-. apply Q.
    eapply quiet_trans; [|apply quiet_do_urgent]. apply quiet_same; [|reflexivity]. cbn. rewrite E. intros u Hu. right. exact Hu.
  - destruct (k_urgent s); [|discriminate]. unfold fire_user in H. destruct (nth_error (k_users s) u) as [v|]; [|discriminate].
    destruct (u_stat v) as [|[d|]|]; try discriminate. destruct (Qeqb d (k_now s)); [|discriminate]. injection H as <-. apply Q.
    eapply quiet_trans; [|apply quiet_remove_user]. apply quiet_set_ustat. discriminate.
  - destruct (k_urgent s); [|discriminate]. unfold fire_check in H.
    destruct (nth_error (k_checks s) p) as [[|d|]|]; try discriminate. destruct (Qeqb d (k_now s)); [|discriminate]. injection H as <-. apply Q.
    eapply quiet_trans; [|apply quiet_check_finally]. apply quiet_same; auto.
  - destruct (k_urgent s) eqn:E; [|discriminate]. destruct (_ && _); [|discriminate]. injection H as <-. apply Q.
    apply quiet_same; [cbn; rewrite E; auto|reflexivity].
Qed.

Lemma continuous_errors cap lvl ee ef t0 s0 os :
  kinit cap lvl ee ef t0 = Some s0 -> lvl <= cap -> Forall no_cancel os -> Forall sane os ->
  match k_halt (krun s0 os) with
  | None => True
  | Some REmpty => ee = true /\ cur_level (krun s0 os) == 0
  | Some RFull => ef = true /\ cur_level (krun s0 os) == cap
  | Some _ => False
  end.
Proof.
  intros H Hc.
  assert (E0 : k_err_empty s0 = ee /\ k_err_full s0 = ef /\ k_cap s0 = cap /\ k_halt s0 = None /\ k_urgent s0 = [] /\ k_users s0 = []).
  { unfold kinit in H. destruct (_ || _); [discriminate|]. injection H as <-. repeat split. }
  destruct E0 as (E1 & E2 & E3 & E4 & E5 & E6).
  set (P := fun s => match k_halt s with
     | None => True
     | Some REmpty => ee = true /\ cur_level s == 0
     | Some RFull => ef = true /\ cur_level s == cap
     | Some _ => False end).
  assert (G : forall os s, good s -> no_stop s -> durations_ok s -> P s -> k_err_empty s = ee -> k_err_full s = ef -> k_cap s = cap ->
     Forall no_cancel os -> Forall sane os -> P (krun s os)).
  { clear os. induction os as [|o os IH]; intros s HG NS DU HP X1 X2 X3 F1 F2; [exact HP|].
    inversion F1 as [|? ? N1 N2]; subst. inversion F2 as [|? ? S1 S2]; subst.
    unfold krun. cbn [fold_left]. destruct (kstep s o) as [s'|] eqn:E; [|apply IH; assumption].
    destruct (kstep_good s o s' HG E) as (G' & Y3 & Y1 & Y2 & _).
    destruct (kstep_calm s o s' E N1 S1 NS DU) as (NS' & DU').
    apply IH; try assumption; try congruence.
    pose proof HG as (Ht & _ & _ & _ & _ & HK).
    assert (Hh : k_halt s = None) by (unfold kstep, halted in E; destruct (k_halt s); [discriminate|reflexivity]).
    pose proof (kstep_ok s o s' (HK Hh) E) as [K2|(r & Hr & Hre)].
    - unfold P. rewrite (kb_live _ (proj1 K2)). exact I.
    - unfold P. rewrite Hr.
      assert (CL : (exists t, o = KAdvance t) \/ cur_level s' == cur_level s).
      { destruct (kstep_level s o s' Ht E) as [A|(t & -> & _)]; [right; apply A|eauto]. }
      destruct CL as [(t & ->)|CL].
      { exfalso. unfold kstep in E. destruct (halted s); [discriminate|]. destruct (k_urgent s); [|discriminate].
        destruct (_ && _); [|discriminate]. injection E as <-. cbn in Hr. congruence. }
      destruct r; cbn in Hre; try exact Hre.
      + destruct Hre as (A & B & _). split; [congruence|]. rewrite CL. exact B.
      + destruct Hre as (A & B & _). split; [congruence|]. rewrite CL, <- X3. exact B.
      + destruct Hre as (u & l & A & _). apply (NS u). rewrite A. left. reflexivity.
      + destruct Hre as (u & v & d & A & B & C). pose proof (DU u v d A B). lra. }
  intros F1 F2. apply (G os s0); try assumption.
  - eapply kinit_good; eassumption.
  - intros u Hu. rewrite E5 in Hu. destruct Hu.
  - intros u v d Hu. rewrite E6 in Hu. destruct u; discriminate.
  - unfold P. rewrite E4. exact I.
Qed.

(** *** Recording *)
Lemma krun_good cap lvl ee ef t0 s0 os : kinit cap lvl ee ef t0 = Some s0 -> lvl <= cap -> good (krun s0 os).
Proof.
  intros H Hc. pose proof (kinit_good _ _ _ _ _ _ H Hc) as G. clear H. revert s0 G.
  induction os as [|o os IH]; intros s0 G; [exact G|]. unfold krun. cbn [fold_left].
  destruct (kstep s0 o) as [s'|] eqn:E; [|apply IH, G]. apply IH. apply (kstep_good s0 o s' G E).
Qed.

Lemma continuous_record cap lvl ee ef t0 s0 os :
  kinit cap lvl ee ef t0 = Some s0 -> lvl <= cap ->
  let s := krun s0 os in
  readings_ordered (k_quant s) /\ readings_distinct (k_quant s) /\
  (forall t v, In (t, v) (k_quant s) -> exists x, In x (kruns s0 os []) /\ k_now x == t /\ cur_level x == v) /\
  (forall x, In x (kruns s0 os []) ->
     exists newer t v older, k_quant s = newer ++ (t, v) :: older /\ k_quant x = (t, v) :: older /\
       t <= k_now x /\ cur_level x == v + k_rate x * (k_now x - t)).
Proof.
  intros H Hc. cbv zeta. pose proof (krun_good _ _ _ _ _ _ os H Hc) as (_ & _ & _ & (Q1 & Q2 & _) & _).
  split; [exact Q1|]. split; [exact Q2|].
  pose proof (kinit_good _ _ _ _ _ _ H Hc) as G0.
  assert (GEN : forall os s past, good s ->
     (forall t v, In (t, v) (k_quant s) -> exists x, In x (s :: past) /\ k_now x == t /\ cur_level x == v) ->
     (forall x, In x (s :: past) -> good x /\ exists newer, k_quant s = newer ++ k_quant x) ->
     (forall t v, In (t, v) (k_quant (krun s os)) -> exists x, In x (kruns s os past) /\ k_now x == t /\ cur_level x == v) /\
     (forall x, In x (kruns s os past) -> good x /\ exists newer, k_quant (krun s os) = newer ++ k_quant x)).
  { clear. induction os as [|o os IH]; intros s past G A B; cbn [kruns]; [split; assumption|].
    unfold krun. cbn [fold_left]. destruct (kstep s o) as [s'|] eqn:E; [|apply IH; assumption].
    destruct (kstep_good s o s' G E) as (G' & _ & _ & _ & _ & (pre & Eq & F)). apply IH; [exact G'| |].
    - intros t v Hin. rewrite Eq in Hin. apply in_app_or in Hin. destruct Hin as [Hin|Hin].
      + rewrite Forall_forall in F. destruct (F _ Hin) as [F1 F2]. cbn in F1, F2. subst t. exists s.
        split; [right; left; reflexivity|]. split; [reflexivity|]. symmetry. exact F2.
      + destruct (A t v Hin) as (x & Hx & Hx2). exists x. split; [right; exact Hx|exact Hx2].
    - intros x [<-|Hx]; [split; [exact G'|exists []; reflexivity]|]. destruct (B x Hx) as (Gx & newer & Ex).
      split; [exact Gx|]. exists (pre ++ newer). rewrite Eq, Ex, app_assoc. reflexivity. }
  destruct (GEN os s0 [] G0) as (A & B).
  - intros t v Hin. exists s0. split; [left; reflexivity|].
    unfold kinit in H. destruct (_ || _); [discriminate|]. injection H as <-. cbn in Hin.
    destruct Hin as [Hin|[]]. injection Hin as <- <-. cbn. split; [reflexivity|]. unfold cur_level. cbn. ring.
  - intros x [<-|[]]. split; [exact G0|]. exists []. reflexivity.
  - split; [exact A|]. intros x Hx. destruct (B x Hx) as ((Ht & _ & _ & _ & (u & v & rest & E1 & E2 & E3) & _) & newer & E).
    exists newer, u, v, rest. rewrite E, E1. split; [reflexivity|]. split; [reflexivity|].
    split; [rewrite E2; exact Ht|]. unfold cur_level. rewrite E2, E3. reflexivity.
Qed.

(** *** Statements about reachable states *)
Lemma reachable_KI s : reachable s -> k_halt s = None -> KI s.
Proof.
  intros (cap & lvl & ee & ef & t0 & s0 & os & H & Hc & ->) Hh.
  destruct (krun_good _ _ _ _ _ _ os H Hc) as (_ & _ & _ & _ & _ & HK). auto.
Qed.
Lemma reachable_bounds s : reachable s -> 0 <= cur_level s /\ cur_level s <= k_cap s.
Proof.
  intros (cap & lvl & ee & ef & t0 & s0 & os & H & Hc & ->).
  destruct (krun_good _ _ _ _ _ _ os H Hc) as (_ & A & B & _). auto.
Qed.

Lemma predicted_done s e : reachable s ->
  match time_until_done s e with
  | Some d => ~ e + k_rate s == 0 /\ 0 <= d /\
      cur_level s + (e + k_rate s) * d == (if Qltb 0 (e + k_rate s) then k_cap s else 0) /\
      (forall d', 0 <= d' -> d' < d -> 0 < cur_level s + (e + k_rate s) * d' \/ 0 < e + k_rate s) /\
      (forall d', 0 <= d' -> d' < d -> cur_level s + (e + k_rate s) * d' < k_cap s \/ e + k_rate s < 0)
  | None => e + k_rate s == 0
  end.
Proof. intro R. destruct (reachable_bounds s R). apply done_exact; assumption. Qed.

Lemma told_at_limit s o s' u : reachable s -> kstep s o = Some s' -> newly_told s s' u -> responsible s u.
Proof.
  intros R H. apply (kstep_told s o s' u); [|exact H]. apply reachable_KI; [exact R|].
  unfold kstep, halted in H. destruct (k_halt s); [discriminate|reflexivity].
Qed.

Lemma limit_told s : reachable s -> k_halt s = None -> k_urgent s = [] -> at_limit s ->
  (forall t, k_now s < t -> kstep s (KAdvance t) = None) /\
  exists p s', kstep s (KFireCheck p) = Some s' /\
    (forall u, In u (told s') <-> responsible s u) /\
    (k_halt s' = Some (if Qltb (k_rate s) 0 then REmpty else RFull) /\
       (if Qltb (k_rate s) 0 then k_err_empty s else k_err_full s) = true
     \/ k_halt s' = None /\ (forall u, In u (k_active s') <-> In u (k_active s) /\ ~ responsible s u) /\
        (if Qltb (k_rate s) 0 then k_err_empty s else k_err_full s) = false).
Proof.
  intros R Hh Hu HL. destruct (limit_tells s (reachable_KI s R Hh) Hu HL) as (A & p & s' & B & C & D).
  split; [exact A|]. exists p, s'. split; [exact B|]. split; [exact C|].
  destruct D as [D|(D & E)]; [left; exact D|right]. split; [apply (proj1 D)|exact E].
Qed.

Lemma due_when_predicted s : reachable s -> k_halt s = None -> k_urgent s = [] -> ~ k_rate s == 0 ->
  exists p due d, k_checking s = Some p /\ nth_error (k_checks s) p = Some (CkWait due) /\
    time_until_done s 0 = Some d /\ due == k_now s + d.
Proof. intros R Hh. apply deadline_exact. apply reachable_KI; assumption. Qed.

(** [time_until_level] right after an evaluation of the level. *)
Lemma level_prediction s lvl e d : k_last s == k_now s -> time_until_level s lvl e = Some d ->
  cur_level s + (e + k_rate s) * d == lvl /\ 0 <= d.
Proof.
  intros Hl H. unfold time_until_level in H. destruct (Qeqb (cur_level s) lvl) eqn:E1; qbool.
  - injection H as <-. split; [lra|lra].
  - destruct (Qeqb (e + k_rate s) 0) eqn:E2; qbool; [discriminate|].
    destruct (Qltb 0 ((lvl - k_level s) / (e + k_rate s))) eqn:E3; [|discriminate]. qbool. injection H as <-.
    split; [|lra]. unfold cur_level. rewrite Hl.
    assert (X : (e + k_rate s) * ((lvl - k_level s) / (e + k_rate s)) == lvl - k_level s) by (field; exact E2).
    rewrite X. ring.
Qed.
Lemma level_prediction_none s lvl e : k_last s == k_now s -> time_until_level s lvl e = None ->
  forall d, 0 <= d -> ~ cur_level s + (e + k_rate s) * d == lvl.
Proof.
  intros Hl H d Hd Hx. unfold time_until_level in H. destruct (Qeqb (cur_level s) lvl) eqn:E1; qbool; [discriminate|].
  destruct (Qeqb (e + k_rate s) 0) eqn:E2; qbool.
  - rewrite E2 in Hx. lra.
  - destruct (Qltb 0 ((lvl - k_level s) / (e + k_rate s))) eqn:E3; [discriminate|]. qbool.
    assert (C : cur_level s == k_level s) by (unfold cur_level; rewrite Hl; ring).
    assert (X : (lvl - k_level s) / (e + k_rate s) == d).
    { rewrite <- Hx, C. field. exact E2. }
    rewrite X in E3. assert (D0 : d == 0) by lra. rewrite D0 in Hx. lra.
Qed.
Lemma level_prediction_both s lvl e :
  k_last s == k_now s ->
  match time_until_level s lvl e with
  | Some d => cur_level s + (e + k_rate s) * d == lvl /\ 0 <= d
  | None => forall d, 0 <= d -> ~ cur_level s + (e + k_rate s) * d == lvl
  end.
Proof.
  intro Hl. destruct (time_until_level s lvl e) as [d|] eqn:E.
  - apply level_prediction; assumption.
  - apply level_prediction_none; assumption.
Qed.
