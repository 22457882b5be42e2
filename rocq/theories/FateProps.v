(** Property C56: every request to a store or container has one fate. *)
From Coq Require Import Permutation.
From Verif Require Import Common StoreModel StoreSpec ContainerModel ContainerSpec FateSpec FateProofs.

(** C56.  The requests ever made (numbered in order of creation) are exactly,
    each once: the puts that were stored, the gets that were served, the
    requests withdrawn, and those still waiting.  So a withdrawn request is
    never granted and none is granted twice. *)
Theorem C56_store_one_fate :
  forall A eqb truthy item_func k c t0 os s h,
    run A eqb truthy item_func (init A item_func k c t0) os = (s, h) ->
    Permutation (map fst (stored A h) ++ map fst (taken A h) ++ cancelled A h ++
                 map fst (s_putq s) ++ map fst (s_getq s))
                (seq 0 (s_next s)).
Proof. exact store_one_fate. Qed.
Print Assumptions C56_store_one_fate.

Theorem C56_container_one_fate :
  forall cap lvl t0 os s h,
    crun (cinit cap lvl t0) os = (s, h) ->
    Permutation (map fst (c_in h) ++ map fst (c_out h) ++ c_cancelled h ++
                 map fst (c_putq s) ++ map fst (c_getq s))
                (seq 0 (c_next s)).
Proof. exact container_one_fate. Qed.
Print Assumptions C56_container_one_fate.

Definition anyz : greq Z := mkG (fun _ => true) None false.
Example C56_example :
  let '(s, h) := run Z Z.eqb (fun _ => true) (fun l => Z.of_nat (length l)) (init Z (fun l => Z.of_nat (length l)) KFilter (Some 1%nat) 0)
     [OpPut 5%Z; OpPut 6%Z; OpPut 7%Z; OpCancel 1%nat; OpGet anyz; OpProcess; OpProcess; OpGet anyz; OpGet anyz; OpCancel 4] in
  map fst (stored Z h) = [0; 2]%nat /\ map fst (taken Z h) = [3; 4]%nat /\ cancelled Z h = [1]%nat /\
  map fst (s_getq s) = [5]%nat /\ s_next s = 6%nat.
Proof. vm_compute. repeat split. Qed.

Example C56_container_example :
  let '(s, h) := crun (cinit (Some 10) 4 0) [CPut 3; CPut 8; CGet 9; CCancel 1; CPut 3; CProcess; CGet 20] in
  map fst (c_in h) = [0; 3]%nat /\ map fst (c_out h) = [2]%nat /\ c_cancelled h = [1]%nat /\ map fst (c_getq s) = [4]%nat.
Proof. vm_compute. repeat split. Qed.
