(** Properties C12, C13, C19, C20 and C57: states and their histories. *)
From Verif Require Import Common StateModel StateSpec StateProofs.

(** C12.  After any sequence of assignments, explicit recordings and clock
    movements, accepted or refused, the history of a recording state is a
    faithful record of the writes, and the state holds the last accepted value. *)
Theorem C12_history_faithful :
  forall V veq is_none typ RS rfun d t0 rs os s tr,
    srun V veq is_none typ RS rfun d (sinit t0 rs) os = (s, tr) -> d_recording d = true ->
    faithful veq (d_dups d) (s_hist s) (writes t0 None [] tr) /\
    s_val s = hd_error (assigned [] tr).
Proof. exact state_faithful. Qed.
Print Assumptions C12_history_faithful.

(** C12.  Each recording function is fed every write, in order, and its own
    history is a faithful record of its results. *)
Theorem C12_recording_functions :
  forall V veq is_none typ RS rfun d t0 rs os s tr,
    srun V veq is_none typ RS rfun d (sinit t0 rs) os = (s, tr) -> d_recording d = true ->
    Forall2 (fun r0 f => fst f = fst (results RS rfun r0 (writes t0 None [] tr)) /\
                         faithful veq (d_dups d) (snd f) (snd (results RS rfun r0 (writes t0 None [] tr))))
            rs (s_funs s).
Proof. exact state_functions. Qed.
Print Assumptions C12_recording_functions.

(** C12.  Change callbacks and nucleus notifications see every accepted
    assignment exactly once and in order, whether or not the state records. *)
Theorem C12_notifications :
  forall V veq is_none typ RS rfun d t0 rs os s tr,
    srun V veq is_none typ RS rfun d (sinit t0 rs) os = (s, tr) ->
    s_called s = assigned [] tr /\ s_sent s = assigned [] tr /\
    (d_recording d = false -> s_hist s = []).
Proof. exact state_notifications. Qed.
Print Assumptions C12_notifications.

(** C12.  A state only ever holds a value of its declared type. *)
Theorem C12_typed :
  forall V veq is_none typ RS rfun d t0 rs os s tr v,
    srun V veq is_none typ RS rfun d (sinit t0 rs) os = (s, tr) -> s_val s = Some v -> typ v = true.
Proof. exact state_typed. Qed.
Print Assumptions C12_typed.

(** C12.  An assignment is accepted exactly if the value has the declared type and the
    state is not a frozen one holding a value; refused, it changes nothing. *)
Theorem C12_accepted :
  forall V veq is_none typ RS rfun d (s : sst V RS) v s' r,
    sstep V veq is_none typ RS rfun d s (SAssign v) = (s', r) ->
    (r = ROk <-> typ v = true /\ (d_frozen d = true -> forall w, s_val s = Some w -> is_none w = true)) /\
    (r = ROk -> s_val s' = Some v) /\ (r <> ROk -> s' = s).
Proof. exact assign_accepted. Qed.
Print Assumptions C12_accepted.

Definition znone (v : Z) : bool := Z.eqb v (-1).   (* stands for None *)
Definition zty (v : Z) : bool := Z.ltb v 100.
Definition zsum (r : Z) (_ : Q) (v : Z) : Z * Z := ((r + v)%Z, (r + v)%Z).
Definition zrun := srun Z Z.eqb znone zty Z zsum.

Example C12_example :
  let '(s, tr) := zrun (mkDef false true false) (sinit 0 [0%Z])
                    [SRecord; SAssign 3; SAssign 3; STime 1; SAssign 200; SAssign 3; SRecord; SAssign 0; SAssign 4]%Z in
  s_hist s = [(1%Q, 4); (1%Q, 0); (1%Q, 3); (0%Q, 3)]%Z /\
  writes 0 None [] tr = [(1%Q, 4); (1%Q, 0); (1%Q, 3); (1%Q, 3); (0%Q, 3); (0%Q, 3)]%Z /\
  s_funs s = [(16, [(1%Q, 16); (1%Q, 12); (1%Q, 9); (0%Q, 6); (0%Q, 3)])]%Z /\
  map snd tr = [RUnset; ROk; ROk; ROk; RType; ROk; ROk; ROk; ROk].
Proof. vm_compute. repeat split. Qed.

(** C13, for values other than None: from then on every assignment is refused
    and the value stays; callbacks and notifications are not made, and the
    history only grows by the same value, when the user records it explicitly. *)
Theorem C13_frozen_partial :
  forall V veq is_none typ RS rfun d os, d_frozen d = true ->
    forall s v s' tr, s_val s = Some v -> is_none v = false ->
      srun V veq is_none typ RS rfun d s os = (s', tr) ->
      s_val s' = Some v /\ s_called s' = s_called s /\ s_sent s' = s_sent s /\
      (forall w r, In (SAssign w, r) tr -> r = RFrozen) /\
      (Forall (fun o => match o with SRecord => False | _ => True end) os ->
         s_hist s' = s_hist s /\ s_funs s' = s_funs s) /\
      (exists newer, s_hist s' = newer ++ s_hist s /\ Forall (fun e => snd e = v) newer).
Proof. exact frozen_run. Qed.
Print Assumptions C13_frozen_partial.

Example C13_example :
  let '(s, tr) := zrun (mkDef true true false) (sinit 0 []) [SAssign 5; STime 1; SAssign 6; SRecord; SAssign 5]%Z in
  s_val s = Some 5%Z /\ s_hist s = [(1%Q, 5); (0%Q, 5)]%Z /\ map snd tr = [ROk; ROk; RFrozen; ROk; RFrozen].
Proof. vm_compute. repeat split. Qed.

(** C13.  A frozen state given None changes again (states.py:252-257). *)
Theorem C13_frozen_none_refuted :
  exists d os s tr, d_frozen d = true /\ zrun d (sinit 0 []) os = (s, tr) /\
    os = [SAssign (-1); SAssign 7]%Z /\ map snd tr = [ROk; ROk] /\ s_val s = Some 7%Z.
Proof. exists (mkDef true true false). eexists. eexists. eexists. split; [reflexivity|]. split; [|split; [reflexivity|]]; vm_compute; auto. Qed.
Print Assumptions C13_frozen_none_refuted.

(** ** Dictionary states *)
Definition zkv := kvrun Z Z.eqb zty.

(** C19 is false: after the TypeError the wrong value is in the dictionary. *)
Theorem C19_dict_typed_refuted :
  exists d os s tr, zkv d (kvinit 0) os = (s, tr) /\ map snd tr = [KOk; KType] /\
    kv_dict s = Some [(1, 500)]%Z /\ zty 500 = false.
Proof.
  exists (mkKD true false []), [KInit [(1, 5)]; KSetItem 1 500]%Z. eexists. eexists.
  split; [vm_compute; reflexivity|]. split; [|split]; reflexivity.
Qed.
Print Assumptions C19_dict_typed_refuted.

(** C19.  What remains true: as long as no item assignment raised, every value
    has the declared type. *)
Theorem C19_dict_typed_partial :
  forall V veq typ d os, Forall (dict_op V) os -> forall s s' tr,
    typed V typ s -> kvrun V veq typ d s os = (s', tr) ->
    (forall k v, ~ In (KSetItem k v, KType) tr /\ ~ In (KSetDefault k v, KType) tr) ->
    typed V typ s'.
Proof. exact kvrun_typed. Qed.
Print Assumptions C19_dict_typed_partial.

(** C19.  A refused item assignment touches no other key and no history. *)
Theorem C19_refused_scope_partial :
  forall V veq typ d s k v s', kvstep V veq typ d s (KSetItem k v) = (s', KType) ->
    kv_hist s' = kv_hist s /\ kv_now s' = kv_now s /\
    forall j, j <> k -> kget j (match kv_dict s' with Some m => m | None => [] end) =
                        kget j (match kv_dict s with Some m => m | None => [] end).
Proof. exact refused_scope. Qed.
Print Assumptions C19_refused_scope_partial.

Example C19_example :
  let '(s, tr) := zkv (mkKD true false []) (kvinit 0)
     [KInit [(1, 5); (2, 6)]; KSetItem 3 7; KSetDefault 3 500; KSetDefault 4 8; KSetItem 1 9]%Z in
  kv_dict s = Some [(1, 9); (2, 6); (3, 7); (4, 8)]%Z /\ map snd tr = [KOk; KOk; KGot 7; KStored 8; KOk]%Z.
Proof. vm_compute. auto. Qed.

(** C20.  Each key has its own faithful history of the writes to that key;
    [hget] is the recorded history, empty if the key has none. *)
Theorem C20_key_history_faithful :
  forall V veq typ d t0 os s tr k,
    kd_recording d = true -> Forall (op_wf V) os -> kvrun V veq typ d (kvinit t0) os = (s, tr) ->
    faithful veq false (hget V k (kv_hist s)) (kwrites k t0 [] tr).
Proof. exact kv_faithful. Qed.
Print Assumptions C20_key_history_faithful.

(** C20.  As long as nothing raised a TypeError, each key shows the value last
    written to it, and is absent if nothing was. *)
Theorem C20_key_current :
  forall V veq typ d t0 os s tr k,
    Forall (op_wf V) os -> kvrun V veq typ d (kvinit t0) os = (s, tr) -> (forall o, ~ In (o, KType) tr) ->
    kget k (match kv_dict s with Some m => m | None => [] end) = option_map snd (hd_error (kwrites k t0 [] tr)).
Proof. exact kv_current. Qed.
Print Assumptions C20_key_current.

Example C20_example :
  let '(s, tr) := zkv (mkKD true false []) (kvinit 0)
     [KInit [(1, 5); (2, 6)]; KSetItem 1 5; KTime 1; KSetItem 1 5; KSetDefault 3 8; KSetItem 2 7]%Z in
  kv_hist s = [(1, [(1%Q, 5); (0%Q, 5)]); (2, [(1%Q, 7); (0%Q, 6)]); (3, [(1%Q, 8)])]%Z /\
  kwrites 1%Z 0 [] tr = [(1%Q, 5); (0%Q, 5); (0%Q, 5)]%Z /\
  Forall (op_wf Z) [KInit [(1, 5); (2, 6)]; KSetItem 1 5; KTime 1; KSetItem 1 5; KSetDefault 3 8; KSetItem 2 7]%Z.
Proof.
  vm_compute. split; [reflexivity|]. split; [reflexivity|]. constructor.
  - cbn. constructor; [intros [H|[]]; discriminate|]. constructor; [intros []|constructor].
  - repeat constructor.
Qed.

(** C20 is false of record_duplicates: it is accepted and has no effect. *)
Theorem C20_duplicates_refuted :
  exists d os s tr, kd_dups d = true /\ kd_recording d = true /\ zkv d (kvinit 0) os = (s, tr) /\
    os = [KInit [(1, 5)]; KSetItem 1 5]%Z /\ map snd tr = [KOk; KOk] /\ hget Z 1%Z (kv_hist s) = [(0%Q, 5)]%Z.
Proof.
  exists (mkKD true true []). do 3 eexists. split; [reflexivity|]. split; [reflexivity|].
  split; [|split; [reflexivity|]]; vm_compute; auto.
Qed.
Print Assumptions C20_duplicates_refuted.

(** C57.  Assigning a field that the dataclass itself annotates either stores
    the value, leaving other fields and their histories alone, or raises
    TypeError and changes nothing. *)
Theorem C57_field_assignment_partial :
  forall V veq typ d s k v m ok,
    kv_dict s = Some m -> kget k m <> None -> kget k (kd_fields d) = Some (true, ok) ->
    forall s' r, kvstep V veq typ d s (KSetAttr k v) = (s', r) ->
    if ok v then r = KOk /\ kget k (match kv_dict s' with Some m' => m' | None => [] end) = Some v /\
                 (forall j, j <> k -> kget j (match kv_dict s' with Some m' => m' | None => [] end) = kget j m) /\
                 (forall j, j <> k -> hget V j (kv_hist s') = hget V j (kv_hist s))
    else r = KType /\ s' = s.
Proof. exact setattr_effect. Qed.
Print Assumptions C57_field_assignment_partial.

Definition dcdef : kvdef Z := mkKD true false [(1, (true, zty)); (2, (false, zty))]%Z.
Example C57_example :
  let '(s, tr) := zkv dcdef (kvinit 0) [KInitDc [(1, 5); (2, 6)]; KSetAttr 1 7; KSetAttr 1 700]%Z in
  kv_dict s = Some [(1, 7); (2, 6)]%Z /\ map snd tr = [KOk; KOk; KType] /\
  kget 1%Z (kd_fields dcdef) = Some (true, zty).
Proof. vm_compute. auto. Qed.

(** C57 is false of a misspelt name (silently dropped, state_proxies.py:129-136)
    and of an inherited field (KeyError, state_proxies.py:110). *)
Theorem C57_field_assignment_refuted :
  (exists os s tr, zkv dcdef (kvinit 0) os = (s, tr) /\ os = [KInitDc [(1, 5); (2, 6)]; KSetAttr 3 7]%Z /\
     map snd tr = [KOk; KIgnored] /\ kv_dict s = Some [(1, 5); (2, 6)]%Z) /\
  (exists os s tr, zkv dcdef (kvinit 0) os = (s, tr) /\ os = [KInitDc [(1, 5); (2, 6)]; KSetAttr 2 7]%Z /\
     map snd tr = [KOk; KKey] /\ kv_dict s = Some [(1, 5); (2, 6)]%Z).
Proof.
  split; do 3 eexists; (split; [|split; [reflexivity|]]; vm_compute; auto).
Qed.
Print Assumptions C57_field_assignment_refuted.
