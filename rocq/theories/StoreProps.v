(** Properties C08, C09, C10, C34 and C50: stores. *)
From Coq Require Import Permutation Sorted.
From Verif Require Import Common StoreModel StoreSpec StoreProofs.

(** C50.  The plain store is a queue: what went in is, in order, what went out
    followed by what is inside. *)
Theorem C50_fifo :
  forall A eqb truthy item_func c t0 os s h,
    run A eqb truthy item_func (init A item_func KStore c t0) os = (s, h) ->
    map snd (stored A h) = map snd (taken A h) ++ s_items s.
Proof. exact fifo. Qed.
Print Assumptions C50_fifo.

(** C50.  Granted gets are handed over in the order they were granted, for
    every kind of store. *)
Theorem C50_delivery_order :
  forall A eqb truthy item_func k c t0 os s h,
    run A eqb truthy item_func (init A item_func k c t0) os = (s, h) ->
    handed_over A h ++ in_flight A s = taken A h.
Proof. exact delivery_in_order. Qed.
Print Assumptions C50_delivery_order.

(** C50.  Puts are served in request order (every kind), the served ones all
    before the waiting ones. *)
Theorem C50_puts_in_request_order :
  forall A eqb truthy item_func k c t0 os s h,
    run A eqb truthy item_func (init A item_func k c t0) os = (s, h) ->
    StronglySorted lt (map fst (stored A h) ++ map fst (s_putq s)).
Proof. exact puts_in_order. Qed.
Print Assumptions C50_puts_in_request_order.

(** C50.  So are the gets of a plain store. *)
Theorem C50_gets_in_request_order :
  forall A eqb truthy item_func c t0 os s h,
    run A eqb truthy item_func (init A item_func KStore c t0) os = (s, h) ->
    StronglySorted lt (map fst (taken A h) ++ map fst (s_getq s)).
Proof. exact gets_in_order. Qed.
Print Assumptions C50_gets_in_request_order.

(** C50.  No get waits while an item is present. *)
Theorem C50_no_idle_get :
  forall A eqb truthy item_func c t0 os s h,
    run A eqb truthy item_func (init A item_func KStore c t0) os = (s, h) ->
    quiescent A s -> s_getq s <> [] -> s_items s = [].
Proof. exact no_idle_get. Qed.
Print Assumptions C50_no_idle_get.

(** C50.  No put waits while there is room. *)
Theorem C50_no_idle_put :
  forall A eqb truthy item_func k c t0 os s h,
    run A eqb truthy item_func (init A item_func k c t0) os = (s, h) ->
    quiescent A s -> s_putq s <> [] -> has_room A (s_cap s) (s_items s) = false.
Proof. exact no_idle_put. Qed.
Print Assumptions C50_no_idle_put.

(** C50.  The capacity is respected. *)
Theorem C50_capacity :
  forall A eqb truthy item_func k n t0 os s h,
    run A eqb truthy item_func (init A item_func k (Some n) t0) os = (s, h) ->
    (length (s_items s) <= n)%nat.
Proof. exact store_capacity. Qed.
Print Assumptions C50_capacity.

(** A schedule with waiting gets and puts: capacity 1, two puts, two gets. *)
Example C50_example :
  let '(s, h) := run Z Z.eqb (fun _ => true) (fun l => Z.of_nat (length l)) (init Z (fun l => Z.of_nat (length l)) KStore (Some 1%nat) 0)
    [OpPut 7%Z; OpPut 8%Z; OpGet (mkG (fun _ => true) None false); OpGet (mkG (fun _ => true) None false);
     OpProcess; OpProcess; OpProcess; OpProcess; OpGet (mkG (fun _ => true) None false)] in
  delivered Z h = [(2%nat, 7%Z); (3%nat, 8%Z)] /\ s_items s = [] /\ length (s_getq s) = 1%nat /\ quiescent Z s.
Proof. vm_compute. repeat split. Qed.

(** C34.  Every item that entered is delivered, on its way, still inside, or
    was granted to a waiter that gave up. *)
Theorem C34_items_conserved :
  forall A eqb truthy item_func, (forall x y, eqb x y = true <-> x = y) ->
  forall k c t0 os s h,
    run A eqb truthy item_func (init A item_func k c t0) os = (s, h) ->
    Permutation (map snd (stored A h))
      (map snd (delivered A h) ++ map snd (in_flight A s) ++ s_items s ++ map snd (lost A h)).
Proof. exact items_conserved. Qed.
Print Assumptions C34_items_conserved.

(** C34 is false: an interrupted getter whose request was granted at the same
    instant loses the item: it is neither delivered, nor stored, nor on its way. *)
Theorem C34_late_cancel_refuted :
  exists os s h,
    run Z Z.eqb (fun _ => true) (fun l => Z.of_nat (length l)) (init Z (fun l => Z.of_nat (length l)) KStore None 0) os = (s, h) /\
    stored Z h = [(1%nat, 42%Z)] /\ delivered Z h = [] /\ in_flight Z s = [] /\ s_items s = [] /\ quiescent Z s /\
    ~ In HIllegal h.
Proof.
  exists [OpGet (mkG (fun _ => true) None false); OpPut 42%Z; OpProcess; OpCancel 0%nat; OpProcess].
  eexists. eexists. split; [vm_compute; reflexivity|]. cbn. repeat split; try reflexivity.
  intros [H|[H|[H|[H|[]]]]]; discriminate.
Qed.
Print Assumptions C34_late_cancel_refuted.

(** C34, what holds: if no get is cancelled between its grant and its
    delivery, nothing is lost.  Missing: exactly those late cancellations. *)
Theorem C34_cancel_safe_partial :
  forall A eqb truthy item_func k c t0 os s h,
    no_late_cancel A eqb truthy item_func (init A item_func k c t0) os ->
    run A eqb truthy item_func (init A item_func k c t0) os = (s, h) -> lost A h = [].
Proof. exact nothing_lost. Qed.
Print Assumptions C34_cancel_safe_partial.

Example C34_cancel_example :
  let os := [OpGet (mkG (fun _ => true) None false); OpGet (mkG (fun _ => true) None false);
             OpCancel 0%nat; OpPut 42%Z; OpProcess; OpProcess] in
  let i := init Z (fun l => Z.of_nat (length l)) KStore None 0 in
  no_late_cancel Z Z.eqb (fun _ => true) (fun l => Z.of_nat (length l)) i os /\
  delivered Z (snd (run Z Z.eqb (fun _ => true) (fun l => Z.of_nat (length l)) i os)) = [(1%nat, 42%Z)].
Proof. vm_compute. repeat split; intros []. Qed.

(** C08.  A new get serves the queue in request order, each request with its
    first best item ([first_best]); a request stays only if nothing matches.
    Items are distinguishable by [==] and truthy. *)
Theorem C08_get_serves_best_partial :
  forall A eqb truthy item_func, (forall x y, eqb x y = true <-> x = y) ->
  forall s g s' h',
    s_kind s = KSorted -> (forall x, truthy x = true) ->
    step A eqb truthy item_func s (OpGet g) = (s', h') ->
    serves A (s_getq s ++ [(s_next s, g)]) (s_items s) (taken A h') (s_getq s') (s_items s').
Proof. exact get_serves. Qed.
Print Assumptions C08_get_serves_best_partial.

(** C08.  Likewise when an arriving item is announced to the waiting gets. *)
Theorem C08_put_serves_best_partial :
  forall A eqb truthy item_func, (forall x y, eqb x y = true <-> x = y) ->
  forall s r x ag s' h',
    s_kind s = KSorted -> (forall x, truthy x = true) ->
    s_agenda s = EPut r x :: ag ->
    step A eqb truthy item_func s OpProcess = (s', h') ->
    serves A (s_getq s) (s_items s) (taken A h') (s_getq s') (s_items s').
Proof. exact put_processed_serves. Qed.
Print Assumptions C08_put_serves_best_partial.

(** C08.  Whatever the truthiness of items: what the store hands over is the
    first best item. *)
Theorem C08_selection :
  forall A eqb truthy, (forall x y, eqb x y = true <-> x = y) ->
  forall g items x rest,
    do_get_sorted A eqb truthy g items = Some (x, rest) -> first_best A g items x rest.
Proof. exact sorted_selects. Qed.
Print Assumptions C08_selection.

(** C08.  Whatever [==] says of different items (any item is [==] to itself): what is
    handed over is the first best item, and what leaves the store is one item, the
    first that is [==] to it. *)
Theorem C08_handed_over :
  forall A eqb truthy, (forall y, eqb y y = true) ->
  forall g items x rest,
    do_get_sorted A eqb truthy g items = Some (x, rest) ->
    (exists rest', first_best A g items x rest') /\
    exists m1 y m2, items = m1 ++ y :: m2 /\ rest = m1 ++ m2 /\ eqb y x = true /\ forall z, In z m1 -> eqb z x = false.
Proof. intros. eapply sorted_gives; eauto. Qed.
Print Assumptions C08_handed_over.

(** Items compare equal by their first component: 3 is handed over, 5 leaves. *)
Example C08_handed_over_ex :
  do_get_sorted (Z * Z) (fun a b => Z.eqb (fst a) (fst b)) (fun _ => true) (mkG (fun _ => true) (Some snd) false) [(2, 4); (1, 5); (1, 3)]%Z
  = Some ((1, 3), [(2, 4); (1, 3)])%Z.
Proof. reflexivity. Qed.

(** Keys 3,1,2,1 (second component), filter out the first 1; ascending picks
    the other 1, descending the 3. *)
Example C08_example :
  do_get_sorted (Z * Z) (fun x y => (Z.eqb (fst x) (fst y) && Z.eqb (snd x) (snd y))%bool) (fun _ => true)
    (mkG (fun x => negb (Z.eqb (fst x) 1)) (Some snd) false) [(0,3);(1,1);(2,2);(3,1)]%Z
    = Some ((3,1), [(0,3);(1,1);(2,2)])%Z /\
  do_get_sorted (Z * Z) (fun x y => (Z.eqb (fst x) (fst y) && Z.eqb (snd x) (snd y))%bool) (fun _ => true)
    (mkG (fun x => negb (Z.eqb (fst x) 1)) (Some snd) true) [(0,3);(1,1);(2,2);(3,1)]%Z
    = Some ((0,3), [(1,1);(2,2);(3,1)])%Z.
Proof. vm_compute. split; reflexivity. Qed.

(** C08 is false when two different items compare equal: the chosen item is
    handed over but the other one is removed, so the chosen item can be handed
    over twice and the other one never. *)
Theorem C08_equal_items_refuted :
  exists (eqb : Z * Z -> Z * Z -> bool) g items x rest,
    (forall a, eqb a a = true) /\
    do_get_sorted (Z * Z) eqb (fun _ => true) g items = Some (x, rest) /\
    In x rest /\ exists y, In y items /\ ~ In y rest /\ y <> x.
Proof.
  exists (fun a b => Z.eqb (fst a) (fst b)), (mkG (fun _ => true) (Some snd) false), [(1, 5); (1, 3)]%Z, (1, 3)%Z, [(1, 3)]%Z.
  split; [intros [a b]; cbn; apply Z.eqb_refl|]. split; [reflexivity|]. split; [left; reflexivity|].
  exists (1, 5)%Z. split; [left; reflexivity|]. split; [intros [H|[]]; discriminate|discriminate].
Qed.
Print Assumptions C08_equal_items_refuted.

(** C09 is false: a matching falsy item (e.g. 0) is never handed over. *)
Theorem C09_falsy_item_refuted :
  exists os s h r g,
    run Z Z.eqb (fun x => negb (Z.eqb x 0)) (fun l => Z.of_nat (length l)) (init Z (fun l => Z.of_nat (length l)) KSorted None 0) os = (s, h) /\
    ~ In HIllegal h /\ quiescent Z s /\ In (r, g) (s_getq s) /\ servable Z KSorted g (s_items s).
Proof.
  exists [OpPut 0%Z; OpProcess; OpGet (mkG (fun _ => true) None false)].
  eexists. eexists. exists 1%nat, (mkG (fun _ => true) None false).
  split; [vm_compute; reflexivity|]. split; [intros [H|[H|[]]]; discriminate|].
  split; [reflexivity|]. split; [left; reflexivity|]. exists 0%Z. cbn. auto.
Qed.
Print Assumptions C09_falsy_item_refuted.

(** C09, worse: a falsy best item hides a truthy match behind it. *)
Theorem C09_falsy_best_hides_refuted :
  exists items, In 5%Z items /\
    do_get_sorted Z Z.eqb (fun x => negb (Z.eqb x 0)) (mkG (fun _ => true) (Some (fun x => x)) false) items = None.
Proof. exists [5; 0]%Z. split; [left; reflexivity|reflexivity]. Qed.
Print Assumptions C09_falsy_best_hides_refuted.

(** C09, what holds (and the same for [FilterStore], without condition on the
    items): at rest no waiting get has a match in the store, if items are truthy. *)
Theorem C09_no_idle_match_partial :
  forall A eqb truthy item_func, (forall x y, eqb x y = true <-> x = y) ->
  forall k c t0 os s h r g,
    k <> KStore -> (k = KSorted -> forall x, truthy x = true) ->
    run A eqb truthy item_func (init A item_func k c t0) os = (s, h) ->
    quiescent A s -> In (r, g) (s_getq s) -> nomatch A g (s_items s).
Proof. exact no_idle_filter. Qed.
Print Assumptions C09_no_idle_match_partial.

Example C09_example :
  let '(s, h) := run Z Z.eqb (fun _ => true) (fun l => Z.of_nat (length l)) (init Z (fun l => Z.of_nat (length l)) KSorted None 0)
    [OpPut 3%Z; OpProcess; OpGet (mkG (Z.ltb 5) None false); OpPut 9%Z; OpPut 8%Z;
     OpGet (mkG (fun _ => true) (Some (fun x => x)) true); OpProcess; OpProcess; OpProcess; OpProcess] in
  quiescent Z s /\ delivered Z h = [(1%nat, 9%Z); (4%nat, 8%Z)] /\ s_items s = [3%Z].
Proof. vm_compute. repeat split. Qed.

(** C10.  The recorded quantities of every monitored store: look-ups agree
    with the true history at every instant, times never decrease, neighbouring
    entries differ, the newest entry is the present quantity and the oldest the
    initial one. *)
Theorem C10_recorded_history :
  forall A eqb truthy item_func k c t0 os s h,
    run A eqb truthy item_func (init A item_func k c t0) os = (s, h) ->
    (forall t, value_at t (s_quant s) =
       value_at t (true_history A eqb truthy item_func (init A item_func k c t0) os [(t0, item_func [])])) /\
    times_ordered (s_quant s) /\ no_repeats (s_quant s) /\
    (exists u rest, s_quant s = (u, item_func (s_items s)) :: rest /\ u <= s_now s) /\
    (exists newer, s_quant s = newer ++ [(t0, item_func [])]).
Proof. exact recorded_history. Qed.
Print Assumptions C10_recorded_history.

Example C10_example :
  let '(s, h) := run Z Z.eqb (fun _ => true) (fun l => Z.of_nat (length l)) (init Z (fun l => Z.of_nat (length l)) KStore None 0)
    [OpPut 3%Z; OpProcess; OpTime 2; OpPut 4%Z; OpProcess; OpTime 5; OpGet (mkG (fun _ => true) None false); OpProcess] in
  s_quant s = [(5, 1%Z); (2, 2%Z); (0, 1%Z); (0, 0%Z)] /\ value_at 3 (s_quant s) = Some 2%Z.
Proof. vm_compute. split; reflexivity. Qed.
