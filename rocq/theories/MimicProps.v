(** C17: mimic states. *)
From Verif Require Import Common ActiveProofs ActiveModel MimicModel MimicSpec MimicProofs.

(** In any state a read that returns gives the current value of the source at
    the end of the chain of mimics, and the reader keeps that value. *)
Theorem C17_reads_source typ w c r v u w' : root w c r -> value w r v ->
  read_cell typ w c = (w', MVal u) -> u = v /\ value w' c v.
Proof. exact (read_root typ (S (length (w_mimic w))) w c r v u w'). Qed.
Print Assumptions C17_reads_source.

(** It does return, as long as no mimicking state is frozen or of the wrong type. *)
Theorem C17_reads_return typ w c r v : healthy typ w -> root w c r -> value w r v ->
  exists w', read_cell typ w c = (w', MVal v) /\ value w' c v.
Proof. exact (healthy_read typ w c r v). Qed.
Print Assumptions C17_reads_return.

(** Reading never changes a state that mimics nothing. *)
Theorem C17_source_untouched typ w c j v : free w j -> value w j v -> value (fst (read_cell typ w c)) j v.
Proof. exact (read_free typ (S (length (w_mimic w))) w c j v). Qed.
Print Assumptions C17_source_untouched.

(** After any operations: a write to a state is recorded at once in the history
    of each recording state that mimics it, and in no other state's. *)
Theorem C17_history_follows typ t0 l os c m v :
  let w := mrun typ (minit t0 l) os in
  mimics w m c -> records w m -> snd (mstep typ w (MAssign c v)) = MOk ->
  shows_now (w_now w) v (history (fst (mstep typ w (MAssign c v))) m).
Proof. exact (write_reaches_mimics typ _ c m v (calls_run typ os _ (calls_init t0 l))). Qed.
Print Assumptions C17_history_follows.
Theorem C17_history_of_others typ t0 l os c m v :
  let w := mrun typ (minit t0 l) os in
  m <> c -> ~ mimics w m c -> history (fst (mstep typ w (MAssign c v))) m = history w m.
Proof. exact (write_leaves_others typ _ c m v (calls_run typ os _ (calls_init t0 l))). Qed.
Print Assumptions C17_history_of_others.

(** Releasing a task's mimics when every mimic of the actor is that task's:
    exactly the actor's mimics stop.  Missing: other tasks' mimics (below). *)
Theorem C17_release_all_partial typ t0 l os a t :
  let w := mrun typ (minit t0 l) os in
  healthy typ w ->
  (forall c s, mimics w c s -> owned w a c = true -> In (t, c) (w_by_task w)) ->
  exists w', mstep typ w (MUnmimicAll a t) = (w', MOk) /\
    forall c, mlook c (w_mimic w') = if owned w a c then None else mlook c (w_mimic w).
Proof. exact (off_all typ _ a t (calls_run typ os _ (calls_init t0 l))). Qed.
Print Assumptions C17_release_all_partial.

(** Two tasks with one mimic each: releasing task 1's mimics raises KeyError
    and has stopped task 2's; so does naming the other task's state. *)
Definition ex_cells : list cell :=
  [mkCell 0 false true false 0 []; mkCell 0 false true false 0 [];
   mkCell 1 false true false 20 []; mkCell 1 false true false 30 []].
Definition all_ok : nat -> Z -> bool := fun _ _ => true.
Theorem C17_other_task_refuted :
  let w := mrun all_ok (minit 0 ex_cells) [MMimic 0 2 1; MMimic 1 3 2] in
  mimics w 0 2 /\ mimics w 1 3 /\
  snd (mstep all_ok w (MUnmimicAll 0 1)) = MKey /\
  free (fst (mstep all_ok w (MUnmimicAll 0 1))) 1 /\
  snd (mstep all_ok w (MUnmimic 1 1)) = MKey /\
  free (fst (mstep all_ok w (MUnmimic 1 1))) 1.
Proof. vm_compute. repeat split. Qed.
Print Assumptions C17_other_task_refuted.

(** ** Examples *)
Example ex_chain :
  let w := mrun all_ok (minit 0 ex_cells) [MMimic 0 2 1; MMimic 1 0 1; MAssign 2 25; MTime 4] in
  root w 1 2 /\ value w 2 25 /\ healthy all_ok w /\ snd (read_cell all_ok w 1) = MVal 25 /\
  snd (mstep all_ok w (MAssign 2 26)) = MOk /\ records w 0 /\
  history (fst (mstep all_ok w (MAssign 2 26))) 0 = [(4%Q, 26); (0%Q, 25); (0%Q, 20)]%Z /\
  snd (mstep all_ok w (MUnmimicAll 0 1)) = MOk.
Proof.
  assert (R0 : root (mrun all_ok (minit 0 ex_cells) [MMimic 0 2 1; MMimic 1 0 1; MAssign 2 25; MTime 4]) 0 2).
  { eapply root_step; [reflexivity|]. apply root_end. reflexivity. }
  assert (R1 : root (mrun all_ok (minit 0 ex_cells) [MMimic 0 2 1; MMimic 1 0 1; MAssign 2 25; MTime 4]) 1 2).
  { eapply root_step; [reflexivity|]. exact R0. }
  cbv zeta. split; [exact R1|]. split; [eexists; split; vm_compute; reflexivity|]. split.
  - intros c s H. destruct c as [|[|c]].
    + exists 2%nat, 25%Z. split; [exact R0|]. split; [eexists; split; vm_compute; reflexivity|].
      eexists. split; [vm_compute; reflexivity|]. split; reflexivity.
    + exists 2%nat, 25%Z. split; [exact R1|]. split; [eexists; split; vm_compute; reflexivity|].
      eexists. split; [vm_compute; reflexivity|]. split; reflexivity.
    + vm_compute in H. discriminate.
  - split; [vm_compute; reflexivity|]. split; [vm_compute; reflexivity|].
    split; [eexists; split; vm_compute; reflexivity|]. split; vm_compute; reflexivity.
Qed.

(** Ending one mimic of the task that began it: it keeps the value its source has then and
    follows it no more; every other mimic goes on. *)
Theorem C17_release_one typ w c s t r v : healthy typ w -> mimics w c s -> root w c r -> value w r v -> In (t, c) (w_by_task w) ->
  exists w', mstep typ w (MUnmimic c t) = (w', MOk) /\ free w' c /\ value w' c v /\ (forall j, j <> c -> mlook j (w_mimic w') = mlook j (w_mimic w)) /\
    (forall j u, free w j -> value w j u -> value w' j u) /\ forall b d, In (b, d) (w_by_task w') <-> In (b, d) (w_by_task w) /\ (b, d) <> (t, c).
Proof.
  intros H M R V B. destruct (healthy_read typ w c r v H R V) as (w1 & E & V1). cbn [mstep]. unfold mimic_off.
  pose proof (read_links typ (S (length (w_mimic w))) w c) as L. fold (read_cell typ w c) in L. rewrite E in L |- *. cbn [fst] in L.
  destruct L as (L1 & L2 & L3 & L4 & L5). rewrite L2. unfold mimics in M. rewrite M. rewrite L3.
  assert (X : existsb (pair_eqb (t, c)) (w_by_task w) = true).
  { apply existsb_exists. exists (t, c). split; [exact B|]. unfold pair_eqb. cbn. rewrite !Nat.eqb_refl. reflexivity. }
  rewrite X. eexists. split; [reflexivity|]. unfold free, value. cbn [w_mimic w_cells w_by_task]. split; [rewrite mlook_del, Nat.eqb_refl; reflexivity|]. split; [exact V1|].
  split; [intros j J; rewrite mlook_del; destruct (Nat.eqb_spec c j); [congruence|reflexivity]|]. split.
  - intros j u FJ VJ. pose proof (read_free typ (S (length (w_mimic w))) w c j u FJ VJ) as Z. fold (read_cell typ w c) in Z. rewrite E in Z. exact Z.
  - intros b d. apply prem_In.
Qed.
Print Assumptions C17_release_one.
Example ex_release :
  let w := mrun all_ok (minit 0 ex_cells) [MMimic 0 2 1; MMimic 1 3 2; MAssign 2 25] in
  snd (mstep all_ok w (MUnmimic 0 1)) = MOk /\ In (1, 0)%nat (w_by_task w) /\ mimics w 0 2.
Proof. vm_compute. auto. Qed.
