(** Properties C153 and C154: rehearsing with floats. *)
From Coq Require Import Lqa.
From Verif Require Import Common StateModel ActiveModel KnowledgeModel PredModel PredSpec PredProofs RndModel RndSpec RndProofs RpdModel RpdSpec RpdProofs.

(** ** C153 *)
(** Python's floats round as is asked for here, and the states of ActiveModel do not set the clock. *)
Theorem C153_floats : clock_rounding rnd64 /\ keeps_clock astep.
Proof. split; [exact rnd64_clock|exact astep_now]. Qed.
(** From an actor without active states, and from a time that is a float: the understudy ends as the actor would, at exactly the
    same time, the task returns or raises as it would, and all it sees on the way is the same, to the last digit. *)
Theorem C153_task rnd act p w : clock_rounding rnd -> keeps_clock act -> rnd (now w) == now w ->
  idle (wd_actor w) -> wd_heap w = [] -> tidy_f 0 [] [] p -> granted (snd (f_prun rnd act p w)) ->
  exists r, f_rehearse rnd act p w = Some r /\
    shows (fst (fst r)) = shows (fst (fst (f_prun rnd act p w))) /\ snd (fst r) = snd (fst (f_prun rnd act p w)) /\ snd r = snd (f_prun rnd act p w).
Proof.
  intros R K Tk I H T G. unfold f_rehearse. rewrite (clone_idle w I). cbn [option_map]. eexists. split; [reflexivity|].
  set (v := mkWd _ _ _ _). assert (W : wrel 0 [] [] w v).
  { split; [reflexivity|]. split; [reflexivity|]. cbn. rewrite H. repeat split; auto; try contradiction; destruct i; discriminate. }
  destruct (f_predicts rnd R act K 0 [] [] p T w v W Tk G) as [P _]. unfold outcome in P. injection P as A B C D E. unfold shows. rewrite A, B, C, D, E. auto.
Qed.
(** The same for tasks one after the other, as rehearse_network and the network's loop perform them. *)
Theorem C153_network rnd act ps w : clock_rounding rnd -> keeps_clock act -> rnd (now w) == now w ->
  idle (wd_actor w) -> wd_heap w = [] -> (forall n p, In p ps -> tidy_f n [] [] p) -> granted (snd (f_run_chain rnd act ps w)) ->
  exists r, f_rehearse_chain rnd act ps w = Some r /\
    shows (fst (fst r)) = shows (fst (fst (f_run_chain rnd act ps w))) /\ snd (fst r) = snd (fst (f_run_chain rnd act ps w)) /\ snd r = snd (f_run_chain rnd act ps w).
Proof.
  intros R K Tk I H T G. unfold f_rehearse_chain. rewrite (clone_idle w I). cbn [option_map]. eexists. split; [reflexivity|].
  set (v := mkWd _ _ _ _). assert (W : wrel 0 [] [] w v).
  { split; [reflexivity|]. split; [reflexivity|]. cbn. rewrite H. repeat split; auto; try contradiction; destruct i; discriminate. }
  pose proof (f_chain_predicts rnd R act K ps T 0%nat w v W Tk G) as P. unfold outcome in P. injection P as A B C D E. unfold f_run_chain, shows. rewrite A, B, C, D, E. auto.
Qed.
(** The members of an Any that a rehearsal calls complete are complete in the run as well: the one way this can go wrong is C154. *)
Theorem C153_complete rnd t0 ds d t : clock_rounding rnd -> best true ds = Some t -> In d ds -> Qleb d t = true ->
  exists f, best true (map (fun d => rnd (t0 + d)) ds) = Some f /\ Qleb (rnd (t0 + d)) f = true.
Proof.
  intros R B I L. rewrite (best_rnd rnd R), B. eexists. split; [reflexivity|]. apply Qleb_le in L. apply Qleb_le. apply (c_mono _ R). lra.
Qed.

(** Decimal numbers as Python reads them. *)
Definition dec (n : Z) : Q := rnd64 (inject_Z n / 10).
Definition start (t : Q) : world := mkWd (mkA t [mkSlot Linear 10 None []; mkSlot Plain 3 None []] []) (mkKn [] [] false) [] 0.
(** Two waits one after the other, then the first of two, then both of two; a linear state runs down meanwhile. *)
Definition tour : prog :=
  Do (SA (AActivate 0 1 (Some (-1)))) (fun _ =>
  New (dec 1) None (fun a => match a with None => Fail | Some a => Yield (EOne a) (fun _ =>
  New (dec 7) None (fun b => match b with None => Fail | Some b =>
  New (dec 3) None (fun c => match c with None => Fail | Some c => Yield (EAny [b; c]) (fun _ => Now (fun _ =>
  New (dec 2) None (fun d => match d with None => Fail | Some d =>
  New (dec 9) None (fun e => match e with None => Fail | Some e => Yield (EAll [d; e]) (fun _ =>
  Done d (fun _ => Do (SA (ADeactivate 0 1)) (fun _ => Ret))) end) end))) end) end)) end)).
Lemma tour_tidy : tidy_f 0 [] [] tour.
Proof.
  repeat first [ apply F_do; intro | apply F_now; intro | apply F_new; [left; reflexivity| |apply F_fail] | apply F_done; [cbn; auto|intro] | apply F_ret
    | apply F_yield; [discriminate|cbn; repeat constructor; cbn; intuition discriminate|intros z Hz; cbn in *; intuition|reflexivity|] ].
Qed.
Lemma no_knowledge l : forallb (fun x => match x with SaidAt _ (SK _) _ => false | _ => true end) l = true -> granted l.
Proof. intros H t o r I. rewrite forallb_forall in H. specialize (H _ I). discriminate H. Qed.
Example C153_ex : tidy_f 0 [] [] tour /\ idle (wd_actor (start 1000)) /\ wd_heap (start 1000) = [] /\ rnd64 (now (start 1000)) == now (start 1000) /\
  granted (snd (f_prun rnd64 astep tour (start 1000))) /\ snd (fst (f_prun rnd64 astep tour (start 1000))) = Returned /\
  now (fst (fst (f_prun rnd64 astep tour (start 1000)))) = rnd64 (rnd64 (rnd64 (1000 + dec 1) + dec 3) + dec 9).
Proof.
  split; [exact tour_tidy|]. split; [split; [reflexivity|repeat constructor]|]. split; [reflexivity|]. split; [vm_compute; reflexivity|].
  split; [|split; vm_compute; reflexivity].
  apply no_knowledge. vm_compute. reflexivity.
Qed.

(** A wait, and one after it by another task, which knows the time. *)
Definition hop (d : Q) : prog := New d None (fun a => match a with None => Fail | Some a => Yield (EOne a) (fun _ => Now (fun t => if Qltb t 1001 then Ret else Fail)) end).
Lemma hop_tidy n d : tidy_f n [] [] (hop d).
Proof.
  apply F_new; [left; reflexivity| |apply F_fail]. apply F_yield; [discriminate|cbn; repeat constructor; cbn; tauto|intros z Hz; cbn in *; tauto|reflexivity|].
  apply F_now. intro t. destruct (Qltb t 1001); [apply F_ret|apply F_fail].
Qed.
Example C153_ex_network : (forall n p, In p [hop (dec 1); hop (dec 7); hop (dec 9)] -> tidy_f n [] [] p) /\
  granted (snd (f_run_chain rnd64 astep [hop (dec 1); hop (dec 7); hop (dec 9)] (start 1000))) /\
  snd (fst (f_run_chain rnd64 astep [hop (dec 1); hop (dec 7); hop (dec 9)] (start 1000))) = Raised /\
  now (fst (fst (f_run_chain rnd64 astep [hop (dec 1); hop (dec 7); hop (dec 9)] (start 1000)))) = rnd64 (rnd64 (rnd64 (1000 + dec 1) + dec 7) + dec 9).
Proof.
  split; [intros n p [<-|[<-|[<-|[]]]]; apply hop_tidy|]. split; [apply no_knowledge; vm_compute; reflexivity|]. split; vm_compute; reflexivity.
Qed.

(** ** C154 *)
(** Wait for the first of 0.3 and 0.1 + 0.2, and go on only if the second has not passed.  At time 1000 both end at the same time,
    in the run, but not in the rehearsal: it ends 5 too early. *)
Definition sum12 : Q := rnd64 (dec 1 + dec 2).
Definition race_of (d1 d2 : Q) : prog :=
  New d1 None (fun a => match a with None => Fail | Some a =>
  New d2 None (fun b => match b with None => Fail | Some b => Yield (EAny [a; b]) (fun _ =>
  Done b (fun x => match x with
    | Some true => New 5 None (fun c => match c with None => Fail | Some c => Yield (EOne c) (fun _ => Ret) end)
    | _ => Ret
    end)) end) end).
Definition race : prog := race_of (dec 3) sum12.
Lemma race_tidy d1 d2 : tidy 0 [] [] (race_of d1 d2).
Proof.
  apply T_new; [left; reflexivity| |apply T_fail]. apply T_new; [left; reflexivity| |apply T_fail].
  apply T_yield; [discriminate|cbn; repeat constructor; cbn; intuition discriminate|intros z Hz; cbn in *; intuition|reflexivity|].
  apply T_done; [cbn; auto|]. intros [[|]|]; try apply T_ret. apply T_new; [left; reflexivity| |apply T_fail].
  apply T_yield; [discriminate|cbn; repeat constructor; cbn; intuition discriminate|intros z Hz; cbn in *; intuition|reflexivity|apply T_ret].
Qed.
Theorem C154_any_refuted : tidy 0 [] [] race /\ idle (wd_actor (start 1000)) /\ dec 3 < sum12 /\
  exists v, f_rehearse rnd64 astep race (start 1000) = Some v /\ snd v = [Made (Some 0%nat); Made (Some 1%nat); Yielded 1000 (EAny [0; 1]%nat); Asked 1 (Some false)] /\
    now (fst (fst v)) = rnd64 (1000 + dec 3) /\ now (fst (fst (f_prun rnd64 astep race (start 1000)))) = rnd64 (rnd64 (1000 + dec 3) + 5) /\
    In (Asked 1 (Some true)) (snd (f_prun rnd64 astep race (start 1000))).
Proof.
  split; [exact (race_tidy _ _)|]. split; [split; [reflexivity|repeat constructor]|]. split; [vm_compute; reflexivity|].
  eexists. split; [vm_compute; reflexivity|]. vm_compute. repeat split. auto 10.
Qed.
(** From time zero they are told apart, and the rehearsal is right. *)
Theorem C154_zero : exists v, f_rehearse rnd64 astep race (start 0) = Some v /\ now (fst (fst v)) = dec 3 /\
  now (fst (fst (f_prun rnd64 astep race (start 0)))) = dec 3.
Proof. eexists. split; [vm_compute; reflexivity|]. vm_compute. split; reflexivity. Qed.
(** Without rounding the rehearsal of this task is right at all times. *)
Lemma shows_from w v : shows_all w = shows_all v -> shows w = shows v.
Proof. unfold shows_all, shows. intro E. injection E as A B C. rewrite A, B, C. reflexivity. Qed.
Lemma race_said d1 d2 w s o r : ~ In (SaidAt s o r) (snd (run (race_of d1 d2) w)).
Proof.
  unfold race_of. cbn [run]. destruct (new_wait w d1 None) as [w1 [a|]]; cbn [run]; [|cbn; intuition discriminate].
  destruct (new_wait w1 d2 None) as [w2 [b|]]; cbn [run]; [|cbn; intuition discriminate]. destruct (wait_for w2 (EAny [a; b])) as [w3 x]. cbn [run].
  destruct (is_done w3 b) as [[|]|]; cbn [run]; try (cbn; intuition discriminate).
  destruct (new_wait w3 5 None) as [w4 [c|]]; cbn [run]; [|cbn; intuition discriminate]. destruct (wait_for w4 (EOne c)). cbn. intuition discriminate.
Qed.
Theorem C154_exact d1 d2 t : exists r, rehearse (race_of d1 d2) (start t) = Some r /\ shows (fst (fst r)) = shows (fst (fst (run (race_of d1 d2) (start t)))).
Proof.
  assert (I : idle (wd_actor (start t))) by (split; [reflexivity|repeat constructor]).
  assert (W : wrel 0 [] [] (start t) (mkWd (wd_actor (start t)) (mkKn [] [] true) [] 0)).
  { split; [reflexivity|]. split; [reflexivity|]. repeat split; auto; try contradiction; destruct i; discriminate. }
  assert (G : granted (snd (run (race_of d1 d2) (start t)))) by (intros s o r H; destruct (race_said _ _ _ _ _ _ H)).
  unfold rehearse. rewrite (clone_idle _ I). eexists. split; [reflexivity|].
  destruct (predicts 0 [] [] _ (race_tidy d1 d2) (start t) _ W G) as [P _]. unfold outcome in P. apply (f_equal (fun x => fst (fst x))) in P. cbn [fst] in P. symmetry. apply shows_from. exact P.
Qed.

Print Assumptions C153_floats.
Print Assumptions C153_task.
Print Assumptions C153_complete.
Print Assumptions C154_any_refuted.
Print Assumptions C154_zero.
Print Assumptions C154_exact.
Print Assumptions C153_network.
