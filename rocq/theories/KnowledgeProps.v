(** Properties C21, C22 and C58: actor knowledge. *)
From Verif Require Import Common StateModel KnowledgeModel KnowledgeSpec KnowledgeProofs.

(** C21.  Every operation, in every state, does to the map of names what
    [meets] says and returns what it says. *)
Theorem C21_knowledge_map :
  forall V (s : kst V) o s' r, wf_op o -> nstep s o = (s', r) -> meets (look s) o r (look s').
Proof. intros V s o s' r Hw H. exact (proj1 (step_meets V s o s' r Hw H)). Qed.
Print Assumptions C21_knowledge_map.

(** C21.  After any history without a failed bulk change, a name holds what
    was last done to it. *)
Theorem C21_last_write :
  forall V n os (s : kst V) s' tr, Forall wf_op os -> nrun s os = (s', tr) ->
    Forall (fun p => ~ bulk_failed p) tr -> look s' n = known n (look s n) tr.
Proof. intros V n. exact (run_known V n). Qed.
Print Assumptions C21_last_write.

(** C21.  Operations on other names never affect a name, failed or not. *)
Theorem C21_other_names :
  forall V n os (s : kst V) s' tr, Forall wf_op os -> Forall (fun o => ~ mentions n o) os ->
    nrun s os = (s', tr) -> look s' n = look s n.
Proof. intros V n. exact (run_frame V n). Qed.
Print Assumptions C21_other_names.

Example C21_example :
  let '(s, tr) := nrun (ninit false)
     [NSet 1 (KOther 5) false; NSet 1 (KOther 6) false; NGet 1 true; NSet 1 KNone true; NGet 1 false; NGet 2 true;
      NSetBulk [(2, KOther 7); (3, KOther 8)] false; NTake 2; NClear 2; NGetBulk [3; 4] false; NClearBulk [3; 1]]%Z in
  map snd tr = [NOk; NSimError; NValue (KOther 5%Z); NOk; NValue KNone; NSimError; NOk; NValue (KOther 7%Z); NSimError;
                NMap [(3%Z, Some (KOther 8%Z)); (4%Z, None)]; NOk] /\
  n_dict s = [] /\
  Forall (fun p => ~ bulk_failed p) tr.
Proof. vm_compute. repeat split. repeat constructor; intros []. Qed.

(** C22 is false: a bulk change that raises has changed the names before the
    offending one; get_and_clear_bulk_knowledge even loses their values. *)
Theorem C22_bulk_atomic_refuted :
  (exists (s s' : kst Z) l, nstep s (NSetBulk l false) = (s', NSimError) /\ wf_op (NSetBulk l false) /\
     look s 1%Z = None /\ look s' 1%Z = Some (KOther 5%Z)) /\
  (exists (s s' : kst Z) l, nstep s (NClearBulk l) = (s', NSimError) /\
     look s 1%Z = Some (KOther 5%Z) /\ look s' 1%Z = None) /\
  (exists (s s' : kst Z) l, nstep s (NTakeBulk l) = (s', NSimError) /\
     look s 1%Z = Some (KOther 5%Z) /\ look s' 1%Z = None).
Proof.
  split; [|split].
  - exists (mkKn [(2%Z, KNone)] [] false). eexists. exists [(1%Z, KOther 5%Z); (2%Z, KOther 6%Z)].
    split; [vm_compute; reflexivity|]. split; [|split; reflexivity].
    cbn. constructor; [intros [H|[]]; discriminate|]. constructor; [intros []|constructor].
  - exists (mkKn [(1%Z, KOther 5%Z)] [] false). eexists. exists [1; 2]%Z. vm_compute. repeat split.
  - exists (mkKn [(1%Z, KOther 5%Z)] [] false). eexists. exists [1; 2]%Z. vm_compute. repeat split.
Qed.
Print Assumptions C22_bulk_atomic_refuted.

(** C22.  What remains true: a bulk change that returns has been applied to
    every name and to nothing else (the bulk cases of [meets]), and one that raises has
    been applied exactly to the names before the first offending one. *)
Theorem C22_bulk_partial :
  forall V (s : kst V) o s' r, wf_op o -> nstep s o = (s', r) ->
    meets (look s) o r (look s') /\ (bulk_failed (o, r) -> stops_half_way (look s) o (look s')).
Proof. exact step_meets. Qed.
Print Assumptions C22_bulk_partial.

(** C58.  succeed_knowledge_event on a name holding an event frees the name and
    succeeds that event and no other; it raises RuntimeError if the event was triggered before
    and has not been processed yet, having replaced its payload, and SimulationError, leaving
    the event alone, if it has been processed. *)
Theorem C58_succeed :
  forall V (s : kst V) n e p x s' r, look s n = Some (KEvent e) -> nth_error (n_events s) e = Some x ->
    nstep s (NSucceed n p) = (s', r) ->
    look s' n = None /\ (forall k, k <> n -> look s' k = look s k) /\
    (forall i, i <> e -> nth_error (n_events s') i = nth_error (n_events s) i) /\
    match x_stat x with
    | KPend => r = NOk /\ nth_error (n_events s') e = Some (mkKE KTrig (Some p))
    | KTrig => r = NRuntime /\ nth_error (n_events s') e = Some (mkKE KTrig (Some p))
    | KDone => r = NComplete /\ nth_error (n_events s') e = Some x
    end.
Proof.
  intros V s n e p x s' r L X H. destruct (succeed_named V s n e p s' r L H) as (A & B & C & D).
  split; [exact A|]. split; [exact B|]. split; [exact C|]. rewrite X in D. destruct x as [[| |] q]; exact D.
Qed.
Print Assumptions C58_succeed.

(** C58.  A created event is found again under its name, whatever is done to
    other names in between. *)
Theorem C58_create_then_succeed :
  forall V (s0 : kst V) n s1 e os s2 tr p s3 r,
    nstep s0 (NCreateEvent n) = (s1, NEvent e) ->
    Forall wf_op os -> Forall (fun o => ~ mentions n o) os -> nrun s1 os = (s2, tr) ->
    nstep s2 (NSucceed n p) = (s3, r) ->
    (forall k, nth_error (n_events s0) e = Some k -> False) /\
    look s3 n = None /\
    exists x, nth_error (n_events s2) e = Some x /\
      match x_stat x with
      | KPend => r = NOk /\ nth_error (n_events s3) e = Some (mkKE KTrig (Some p))
      | KTrig => r = NRuntime /\ nth_error (n_events s3) e = Some (mkKE KTrig (Some p))
      | KDone => r = NComplete /\ nth_error (n_events s3) e = Some x
      end.
Proof. exact create_then_succeed. Qed.
Print Assumptions C58_create_then_succeed.

(** C58.  If nobody uses the event itself or succeeds any knowledge event meanwhile, it is still
    pending and the call triggers it with the payload. *)
Theorem C58_first_success :
  forall V (s0 : kst V) n s1 e os s2 tr p,
    nstep s0 (NCreateEvent n) = (s1, NEvent e) ->
    Forall wf_op os -> Forall (fun o => ~ mentions n o) os -> nrun s1 os = (s2, tr) ->
    (forall i q, ~ In (NSucceed i q) os) -> (forall q, ~ In (NFire e q) os) -> ~ In (NReset e) os -> ~ In (NProcessed e) os ->
    exists s3, nstep s2 (NSucceed n p) = (s3, NOk) /\ look s3 n = None /\
      nth_error (n_events s3) e = Some (mkKE KTrig (Some p)).
Proof.
  intros V s0 n s1 e os s2 tr p H1 Hw Hm H2 N1 N2 N3 N4.
  destruct (nstep s2 (NSucceed n p)) as [s3 r] eqn:H3.
  destruct (create_then_succeed V s0 n s1 e os s2 tr p s3 r H1 Hw Hm H2 H3) as (_ & A & x & B & C).
  assert (E : nth_error (n_events s1) e = Some knew).
  { cbn [nstep] in H1. destruct (set_know _ _ _ _) as [d [|]]; [|discriminate]. injection H1 as <- <-. cbn.
    rewrite nth_error_app2, Nat.sub_diag by lia. reflexivity. }
  rewrite (event_untouched V os s1 s2 tr e _ H2 N1 N2 N3 N4 E) in B. injection B as <-. destruct C as [-> C].
  exists s3. auto.
Qed.
Print Assumptions C58_first_success.

(** C58.  Once an event is processed, what it was succeeded with does not change until it is reset. *)
Theorem C58_payload_stays :
  forall V os (s : kst V) s' tr e p, nrun s os = (s', tr) -> ~ In (NReset e) os ->
    nth_error (n_events s) e = Some (mkKE KDone p) -> nth_error (n_events s') e = Some (mkKE KDone p).
Proof. exact event_payload_stays. Qed.
Print Assumptions C58_payload_stays.

(** C58.  Processing a triggered event keeps its payload; a reset event keeps it too and can be
    succeeded again. *)
Theorem C58_processed_and_reset :
  (forall V (s : kst V) e p, nth_error (n_events s) e = Some (mkKE KTrig p) ->
     nth_error (n_events (fst (nstep s (NProcessed e)))) e = Some (mkKE KDone p)) /\
  (forall V (s : kst V) e x, nth_error (n_events s) e = Some x ->
     nth_error (n_events (fst (nstep s (NReset e)))) e = Some (mkKE KPend (x_load x)) /\
     forall q, snd (nstep (fst (nstep s (NReset e))) (NFire e q)) = NOk /\
       nth_error (n_events (fst (nstep (fst (nstep s (NReset e))) (NFire e q)))) e = Some (mkKE KTrig (Some q))).
Proof.
  split.
  - intros V s e p H. cbn. destruct (processed_spec V (n_events s) e) as (_ & _ & ->). rewrite H. reflexivity.
  - intros V s e x H. cbn [nstep fst n_events]. destruct (reset_spec V (n_events s) e) as (_ & _ & R). rewrite H in R.
    split; [exact R|]. intro q. destruct (fire (reset_ev (n_events s) e) e q) as [evs r] eqn:F. apply fire_spec in F.
    rewrite R in F. destruct F as (_ & _ & A & B). cbn. auto.
Qed.
Print Assumptions C58_processed_and_reset.

(** C58.  A name not holding an event is refused and nothing changes; creating
    an event under a name in use is refused outside rehearsals. *)
Theorem C58_refusals :
  (forall V (s : kst V) n p s' r, (forall e, look s n <> Some (KEvent e)) ->
     nstep s (NSucceed n p) = (s', r) -> s' = s /\ r = NSimError) /\
  (forall V (s : kst V) n s' r, nstep s (NCreateEvent n) = (s', r) ->
     if n_rehearsing s then r = NEvent (length (n_events s)) /\ look s' n = Some (KEvent (length (n_events s)))
     else match look s n with
          | Some _ => r = NSimError /\ n_dict s' = n_dict s
          | None => r = NEvent (length (n_events s)) /\ look s' n = Some (KEvent (length (n_events s)))
          end).
Proof. split; [exact succeed_unnamed|exact create_refused]. Qed.
Print Assumptions C58_refusals.

Example C58_example :
  let '(s, tr) := nrun (ninit false)
     [NCreateEvent 1; NCreateEvent 1; NCreateEvent 2; NSet 3 (KOther 4) false; NSucceed 2 7; NSucceed 2 8;
      NFire 0 9; NSucceed 1 5; NSucceed 3 1; NProcessed 2; NFire 2 6; NCreateEvent 2; NFire 3 1; NProcessed 3; NSucceed 2 2; NReset 3; NFire 3 4]%Z in
  map snd tr = [NEvent 0; NSimError; NEvent 2; NOk; NOk; NSimError; NOk; NRuntime; NSimError; NOk; NComplete; NEvent 3; NOk; NOk; NComplete; NOk; NOk]%nat /\
  n_dict s = [(3%Z, KOther 4%Z)] /\
  n_events s = [mkKE KTrig (Some 5); knew; mkKE KDone (Some 7); mkKE KTrig (Some 4)]%Z.
Proof. vm_compute. repeat split. Qed.
