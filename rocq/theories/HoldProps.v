(** Theorems about resource holds (C32). *)
From Verif Require Import Common HoldModel HoldSpec HoldProofs.

(** What a hold does to the resource is: nothing, one acquisition, or that
    acquisition and then giving back that very request.  Any third yield raises
    and changes nothing. *)
Theorem C32_alternates cap os i : let tr := snd (hrun (hinit cap) os) in
  moves i tr = [] \/ (exists r, moves i tr = [MAcquire r]) \/ (exists r, moves i tr = [MAcquire r; MGiveBack r]).
Proof.
  cbn zeta. rewrite <- reach_moves. unfold so_far. destruct (nth_error _ i) as [h|]; [|auto].
  destruct (h_stage h), (h_req h); eauto.
Qed.
Theorem C32_first_yield cap os i : let '(s, tr) := hrun (hinit cap) os in
  (i < length (hs_holds s))%nat -> moves i tr = [] ->
  exists r, snd (hstep s (HYield i)) = HRequested r /\
            nth_error (hs_own (fst (hstep s (HYield i)))) r = Some (Some i) /\
            (In r (hs_users (fst (hstep s (HYield i)))) \/ In r (hs_queue (fst (hstep s (HYield i))))).
Proof.
  destruct (reach_inv cap os) as [R H]. pose proof (reach_moves cap os i) as M.
  destruct (hrun (hinit cap) os) as [s tr]. cbn [fst snd] in *. intros L E. rewrite E in M. unfold so_far in M.
  destruct (nth_error (hs_holds s) i) as [h|] eqn:Eh; [|apply nth_error_None in Eh; lia].
  pose proof (proj1 H i h Eh) as G. unfold good_hold in G.
  assert (Es : h_stage h = SRequest).
  { destruct (h_stage h); [reflexivity| |]; destruct G as (_ & r & G & _); rewrite G in M; discriminate. }
  pose proof (step_inv s (HYield i) R H) as [R1 H1].
  exists (length (hs_reqs s)). cbn [hstep]. rewrite Eh, Es. cbn [request fst snd put_hold hs_own hs_users hs_queue].
  fold (before_grant s (Some i)). split; [reflexivity|]. split.
  - rewrite (proj1 (proj2 (grant_same _))). cbn [before_grant hs_own]. rewrite new_nth, (ri_own s R), Nat.eqb_refl. reflexivity.
  - destruct (grant_cases (before_grant s (Some i))) as [[Q ->]|[(r & q & Q & C & ->)|(r & q & Q & C & ->)]].
    + cbn in Q. apply app_eq_nil in Q. destruct Q; discriminate.
    + right. cbn. apply in_or_app. right. left. reflexivity.
    + cbn [hs_users hs_queue]. cbn [before_grant hs_queue hs_users] in *.
      assert (I : In (length (hs_reqs s)) (r :: q)) by (rewrite <- Q; apply in_or_app; right; left; reflexivity).
      destruct I as [->|I]; [|auto]. left. apply in_or_app. right. left. reflexivity.
Qed.
(** The second yield gives back exactly one unit when the first request has been
    answered; until then it raises and changes nothing. *)
Theorem C32_second_yield cap os i r : let '(s, tr) := hrun (hinit cap) os in
  moves i tr = [MAcquire r] ->
  (nth_error (hs_reqs s) r = Some QProcessed ->
     let s' := fst (hstep s (HYield i)) in
     snd (hstep s (HYield i)) = HReleased r /\ In r (hs_users s) /\ ~ In r (hs_users s') /\
     (forall x, x <> r -> In x (hs_users s') <-> In x (hs_users s)) /\ length (hs_users s) = S (length (hs_users s'))) /\
  (nth_error (hs_reqs s) r <> Some QProcessed -> hstep s (HYield i) = (s, HSimErr)).
Proof.
  destruct (reach_inv cap os) as [R H]. pose proof (reach_moves cap os i) as M.
  destruct (hrun (hinit cap) os) as [s tr]. cbn [fst snd] in *. intro E. rewrite E in M. unfold so_far in M.
  destruct (nth_error (hs_holds s) i) as [h|] eqn:Eh; [|discriminate].
  pose proof (proj1 H i h Eh) as G. unfold good_hold in G. destruct (h_stage h) eqn:Es; [discriminate| |].
  - destruct G as (_ & x & B & C & D & U). rewrite B in M. inversion M; subst x. split.
    + intros P. assert (I : In r (hs_users s)) by (apply U; right; exact P).
      destruct (yield_releases s i r R H (conj I C) P) as (A1 & A2 & A3 & A4). auto.
    + intro NP. cbn [hstep]. rewrite Eh, Es, B. destruct (nth_error (hs_reqs s) r) as [[]|]; try reflexivity. congruence.
  - destruct G as (_ & x & B & _). rewrite B in M. discriminate.
Qed.
Theorem C32_third_yield cap os i r : let '(s, tr) := hrun (hinit cap) os in
  moves i tr = [MAcquire r; MGiveBack r] -> hstep s (HYield i) = (s, HUpErr) /\ ~ In r (hs_users s).
Proof.
  destruct (reach_inv cap os) as [R H]. pose proof (reach_moves cap os i) as M.
  destruct (hrun (hinit cap) os) as [s tr]. cbn [fst snd] in *. intro E. rewrite E in M. unfold so_far in M.
  destruct (nth_error (hs_holds s) i) as [h|] eqn:Eh; [|discriminate].
  pose proof (proj1 H i h Eh) as G. unfold good_hold in G. destruct (h_stage h) eqn:Es.
  - discriminate.
  - destruct G as (_ & x & B & _). rewrite B in M. discriminate.
  - destruct G as (_ & x & B & C & D & U & _). rewrite B in M. inversion M; subst x. split; [|exact U].
    cbn [hstep]. rewrite Eh, Es. reflexivity.
Qed.

(** Whatever was yielded, cancelled and done by others: a unit in use on behalf
    of a hold is given back by yielding that hold, once the events already on
    the agenda up to its grant are processed. *)
Theorem C32_never_stranded cap os i r : let s := fst (hrun (hinit cap) os) in holds_on s i r ->
  exists n, (n <= length (hs_agenda s))%nat /\
    let s1 := fst (hrun s (ticks n)) in holds_on s1 i r /\
    snd (hstep s1 (HYield i)) = HReleased r /\ ~ In r (hs_users (fst (hstep s1 (HYield i)))) /\
    length (hs_users s1) = S (length (hs_users (fst (hstep s1 (HYield i))))).
Proof.
  cbn zeta. destruct (reach_inv cap os) as [R H]. set (s := fst (hrun (hinit cap) os)) in *. intro O.
  destruct (ri_held s R r (proj1 O)) as [G|P].
  - apply (ri_ag s R) in G. apply ag_split in G. destruct G as (a & b & E).
    destruct (ticks_process a s r b i R H E O) as (R1 & H1 & O1 & S1). exists (S (length a)). split.
    + rewrite E, app_length. simpl. lia.
    + destruct (yield_releases _ i r R1 H1 O1 S1) as (A1 & A2 & _ & A4). auto.
  - exists 0%nat. split; [lia|]. cbn [ticks hrun fst]. destruct (yield_releases s i r R H O P) as (A1 & A2 & _ & A4). auto.
Qed.
(** Cancelling a hold whose request waits takes the request off the queue for
    good; cancelling in any other stage does nothing. *)
Theorem C32_cancel_waiting cap os i r os' : let s := fst (hrun (hinit cap) os) in
  waiting_for s r -> nth_error (hs_own s) r = Some (Some i) ->
  let s1 := fst (hstep s (HCancel i)) in let s2 := fst (hrun s1 os') in
  ~ In r (hs_queue s2) /\ ~ In r (hs_users s2) /\
  (forall x, x <> r -> In x (hs_queue s1) <-> In x (hs_queue s)) /\ hs_users s1 = hs_users s.
Proof.
  cbn zeta. destruct (reach_inv cap os) as [R H]. set (s := fst (hrun (hinit cap) os)) in *. intros W O.
  destruct (owner_hold s i r R H O) as (h & A & B & C).
  pose proof (step_inv s (HCancel i) R H) as [R1 H1]. apply (ri_wait s R) in W.
  assert (NR : h_rel h = false).
  { pose proof (proj1 H i h A) as G. unfold good_hold in G. destruct C as [C|[C _]]; rewrite C in G; [apply G|].
    destruct G as (_ & x & G & _ & _ & _ & P). rewrite B in G. inversion G; subst x. congruence. }
  assert (E : fst (hstep s (HCancel i)) = withdraw s r) by (cbn [hstep]; rewrite A, NR, B; reflexivity).
  rewrite E in *. assert (S1 : st (withdraw s r) r = Some QWithdrawn).
  { unfold withdraw. unfold st in W. rewrite W. unfold st. cbn [hs_reqs]. rewrite EvProofs.nth_upd, Nat.eqb_refl, W. reflexivity. }
  pose proof (run_withdrawn os' _ r R1 H1 S1) as S2. pose proof (run_inv os' _ R1 H1) as [R2 H2].
  split; [intro I; apply (ri_wait _ R2) in I; congruence|]. split; [intro I; apply (ri_held _ R2) in I; destruct I; congruence|].
  unfold withdraw. unfold st in W. rewrite W. cbn [hs_queue hs_users]. split; [|reflexivity].
  intros x Hx. rewrite remove1_in by apply R. tauto.
Qed.
Theorem C32_cancel_otherwise cap os i : let s := fst (hrun (hinit cap) os) in
  (forall r, nth_error (hs_own s) r = Some (Some i) -> ~ waiting_for s r) -> fst (hstep s (HCancel i)) = s.
Proof.
  cbn zeta. destruct (reach_inv cap os) as [R H]. set (s := fst (hrun (hinit cap) os)) in *. intro N.
  cbn [hstep]. destruct (nth_error (hs_holds s) i) as [h|] eqn:A; [|reflexivity].
  destruct (h_rel h); [reflexivity|]. destruct (h_req h) as [r|] eqn:B; [|reflexivity]. cbn [fst].
  pose proof (proj1 H i h A) as G. unfold good_hold in G.
  assert (O : own s r = Some (Some i)).
  { destruct (h_stage h); [destruct G; congruence| |]; destruct G as (_ & x & G & O & _); rewrite G in B; inversion B; subst; exact O. }
  unfold withdraw. destruct (nth_error (hs_reqs s) r) as [[]|] eqn:E; try reflexivity. exfalso. apply (N r O). apply (ri_wait s R). exact E.
Qed.
(** After cancelling a waiting request the hold is spent: every later yield
    raises SimulationError. *)
Theorem C32_cancelled_is_spent cap os i r os' : let s := fst (hrun (hinit cap) os) in
  waiting_for s r -> nth_error (hs_own s) r = Some (Some i) ->
  snd (hstep (fst (hrun (fst (hstep s (HCancel i))) os')) (HYield i)) = HSimErr.
Proof.
  cbn zeta. destruct (reach_inv cap os) as [R H]. set (s := fst (hrun (hinit cap) os)) in *. intros W O.
  destruct (owner_hold s i r R H O) as (h & A & B & C).
  pose proof (step_inv s (HCancel i) R H) as [R1 H1]. apply (ri_wait s R) in W.
  assert (SR : h_stage h = SRelease /\ h_rel h = false).
  { pose proof (proj1 H i h A) as G. unfold good_hold in G. destruct C as [C|[C _]]; rewrite C in G; [split; [exact C|apply G]|].
    destruct G as (_ & x & G & _ & _ & _ & P). rewrite B in G. inversion G; subst x. congruence. }
  destruct SR as [SR NR].
  assert (E : fst (hstep s (HCancel i)) = withdraw s r) by (cbn [hstep]; rewrite A, NR, B; reflexivity).
  rewrite E in *. apply (stuck_run os' _ i r h R1 H1).
  - rewrite withdraw_holds. exact A.
  - exact SR.
  - exact B.
  - unfold withdraw. unfold st in W. rewrite W. unfold st. cbn [hs_reqs]. rewrite EvProofs.nth_upd, Nat.eqb_refl, W. reflexivity.
Qed.

(** Never more units in use than there are, each by one request; nobody waits
    while a unit is free and no release is under way; units go in order of
    request. *)
Theorem C32_capacity cap os : let s := fst (hrun (hinit cap) os) in
  (length (hs_users s) <= hs_cap s)%nat /\ NoDup (hs_users s).
Proof. cbn zeta. destruct (reach_inv cap os) as [R _]. split; apply R. Qed.
Theorem C32_no_lost_release cap os r : let s := fst (hrun (hinit cap) os) in
  waiting_for s r -> (free s <= releases s)%nat.
Proof.
  cbn zeta. destruct (reach_inv cap os) as [R _]. intro W.
  assert (NE : hs_queue (fst (hrun (hinit cap) os)) <> []) by (intro E; unfold waiting_for in W; rewrite E in W; destruct W).
  pose proof (ri_go _ R NE) as G. unfold free, releases. unfold n_rel in G. lia.
Qed.
Theorem C32_no_overtaking cap os r r' : let s := fst (hrun (hinit cap) os) in
  waiting_for s r -> In r' (hs_users s) -> (r' < r)%nat.
Proof.
  cbn zeta. destruct (reach_inv cap os) as [R _]. destruct (reach_FI cap os) as [_ F]. intros W U.
  apply F; [|exact W]. apply (ri_held _ R). exact U.
Qed.

(** Examples: one unit, two holds. *)
Definition two : list hop := [HNew; HNew; HYield 0; HYield 1; HTick; HYield 0; HTick; HTick].
Example two_moves : moves 0 (snd (hrun (hinit 1) two)) = [MAcquire 0; MGiveBack 0] /\
  moves 1 (snd (hrun (hinit 1) two)) = [MAcquire 1] /\ holds_on (fst (hrun (hinit 1) two)) 1 1.
Proof. vm_compute. auto. Qed.
Example third : snd (hstep (fst (hrun (hinit 1) two)) (HYield 0)) = HUpErr.
Proof. reflexivity. Qed.
(** Hold 1 is granted and cancelled before the grant is processed: the unit
    stays in use, yielding at once raises, after one event it is given back. *)
Definition granted : list hop := [HNew; HNew; HYield 0; HYield 1; HTick; HYield 0; HTick; HCancel 1].
Example granted_in_use : let s := fst (hrun (hinit 1) granted) in holds_on s 1 1 /\
  snd (hstep s (HYield 1)) = HSimErr /\ snd (hstep (fst (hstep s HTick)) (HYield 1)) = HReleased 1.
Proof. vm_compute. auto. Qed.
Definition withdrawn : list hop := [HNew; HNew; HYield 0; HYield 1].
Example waiting_cancelled : let s := fst (hrun (hinit 1) withdrawn) in waiting_for s 1 /\ nth_error (hs_own s) 1 = Some (Some 1%nat) /\
  hs_queue (fst (hstep s (HCancel 1))) = [].
Proof. vm_compute. auto. Qed.

Print Assumptions C32_alternates.
Print Assumptions C32_first_yield.
Print Assumptions C32_second_yield.
Print Assumptions C32_third_yield.
Print Assumptions C32_never_stranded.
Print Assumptions C32_cancel_waiting.
Print Assumptions C32_cancel_otherwise.
Print Assumptions C32_cancelled_is_spent.
Print Assumptions C32_capacity.
Print Assumptions C32_no_lost_release.
Print Assumptions C32_no_overtaking.
