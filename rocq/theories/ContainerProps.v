(** Property theorems about containers and recorded levels. *)
From Coq Require Import Sorted.
From Verif Require Import Common ReserveModel ContainerModel ContainerSpec ContainerProofs.

(** C11: the recorded history of a [SelfMonitoringContainer], looked up at any
    time, gives the level that was in force then; times never decrease, no
    reading is repeated and the newest reading is the present level. *)
Theorem C11_container_history cap lvl t0 os s h :
  crun (cinit cap lvl t0) os = (s, h) ->
  (forall t, oeq (level_at t (c_quant s))
     (level_at t (true_levels cst cop (fun s o => fst (cstep s o)) c_now c_level (cinit cap lvl t0) os [(t0, lvl)]))) /\
  readings_ordered (c_quant s) /\ readings_distinct (c_quant s) /\
  (exists u v rest, c_quant s = (u, v) :: rest /\ v == c_level s /\ u <= c_now s) /\
  (exists newer, c_quant s = newer ++ [(t0, lvl)]).
Proof. exact (container_history cap lvl t0 os s h). Qed.
Print Assumptions C11_container_history.

Example C11_container_example :
  exists s h, crun (cinit (Some 10) 5 0) [CPut 3; CProcess; CTime 2; CGet 7; CGet 4; CProcess; CTime 3; CPut 9; CProcess] = (s, h) /\
    map snd (c_quant s) = [6; 10; 1; 8; 5] /\ map fst (c_quant s) = [3; 3; 2; 0; 0].
Proof. eexists _, _. split; [vm_compute; reflexivity|]. split; vm_compute; reflexivity. Qed.

(** C11 for [SelfMonitoringReserveContainer]: the recorded quantity is the
    amount physically present. *)
Theorem C11_reserve_history keyof lvl cap t0 os s q :
  rm_run keyof (rm_init lvl cap t0) os = (s, q) ->
  (forall t, oeq (level_at t q)
     (level_at t (true_levels (st * list (Q * Q)) op (fun sq o => fst (rm_step keyof sq o))
                   (fun sq => now (fst sq)) (fun sq => real_level (fst sq))
                   (rm_init lvl cap t0) os [(t0, lvl)]))) /\
  readings_ordered q /\ readings_distinct q /\
  (exists u v rest, q = (u, v) :: rest /\ v == real_level s /\ u <= now s) /\
  (exists newer, q = newer ++ [(t0, lvl)]).
Proof. exact (reserve_history keyof lvl cap t0 os s q). Qed.
Print Assumptions C11_reserve_history.

Example C11_reserve_example :
  exists s, rm_run (fun z => z) (rm_init 5 (Some 10) 0)
    [Reserve 1 2 None; Wait 1; Take 1; Put 4 false; Take 1] = (s, [(1, 7); (1, 3); (0, 5)]).
Proof. eexists. vm_compute. reflexivity. Qed.

(** C54: a container's level is the initial level plus granted puts minus
    granted gets, and stays within its bounds. *)
Theorem C54_level_is_ledger cap lvl t0 os s h :
  0 <= lvl -> cap_ok cap lvl -> crun (cinit cap lvl t0) os = (s, h) ->
  c_level s == lvl + amounts (c_in h) - amounts (c_out h) /\ 0 <= c_level s /\ cap_ok cap (c_level s).
Proof. exact (container_conserves cap lvl t0 os s h). Qed.
Print Assumptions C54_level_is_ledger.

(** C54: puts are granted in request order and so are gets; what waits is
    younger than what was granted. *)
Theorem C54_request_order cap lvl t0 os s h :
  crun (cinit cap lvl t0) os = (s, h) ->
  StronglySorted lt (map fst (c_in h) ++ map fst (c_putq s)) /\
  StronglySorted lt (map fst (c_out h) ++ map fst (c_getq s)).
Proof. exact (container_order cap lvl t0 os s h). Qed.
Print Assumptions C54_request_order.

(** C54, needless waiting: once everything at the present instant is processed
    the first waiting put does not fit and the first waiting get is not covered.
    Missing for the full claim: histories with cancellations, where it is false. *)
Theorem C54_no_idle_partial cap lvl t0 os s h :
  (forall r, ~ In (CCancel r) os) -> crun (cinit cap lvl t0) os = (s, h) -> c_agenda s = [] ->
  (forall r a q, c_putq s = (r, a) :: q -> fits (c_cap s) (c_level s) a = false) /\
  (forall r a q, c_getq s = (r, a) :: q -> c_level s < a).
Proof. exact (container_no_idle cap lvl t0 os s h). Qed.
Print Assumptions C54_no_idle_partial.

Example C54_example :
  exists s h, crun (cinit (Some 10) 5 0) [CGet 8; CGet 1; CPut 2; CProcess; CPut 1; CProcess; CProcess] = (s, h) /\
    c_agenda s = [] /\ map fst (c_out h) = [0]%nat /\ map fst (c_getq s) = [1]%nat /\ c_level s == 0.
Proof. eexists _, _. split; [vm_compute; reflexivity|]. repeat split; vm_compute; reflexivity. Qed.

(** Cancelling the first request in the queue does not wake the one behind it:
    get 1 fits, nothing is pending, and it waits. *)
Theorem C54_cancelled_head_refuted :
  exists os s h, crun (cinit (Some 10) 5 0) os = (s, h) /\ c_agenda s = [] /\
    exists r a q, c_getq s = (r, a) :: q /\ a <= c_level s.
Proof.
  exists [CGet 8; CGet 1; CCancel 0]. eexists _, _. split; [vm_compute; reflexivity|]. split; [reflexivity|].
  exists 1%nat, 1, []. split; [reflexivity|]. vm_compute. discriminate.
Qed.
Print Assumptions C54_cancelled_head_refuted.
