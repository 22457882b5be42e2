(** Theorems about the data table of a run: what is written to the states of actors while
    the clock moves (states.py, state_proxies.py), and what create_table makes of it
    (data_utils/data_utils.py). *)
From Coq Require Import String.
From Verif Require Import Common StateModel StateSpec NetModel TabModel RepModel RepSpec RepProofs.
Open Scope list_scope.

(** C143: the rows about a recorded state are a faithful record of what was written to it:
    in order, nothing that was not written, each written value shown at its time, and at
    every time the value then in force. *)
Theorem C143_plain : forall V veq is_none whole kname, (forall k k', kname k = kname k' -> k = k') ->
  forall (w0 w : rworld V) os tr, fresh V w0 -> Forall (rop_wf V) os -> rrun V veq is_none w0 os = (w, tr) ->
  forall save i j a n d typ s l, table V whole kname save w = inl l ->
  nth_error (rw_actors w) i = Some a -> nth_error (ra_comps a) j = Some (n, CPlain d typ s) ->
  d_recording d = true -> assigned [] (plain_part V i j tr) <> [] ->
  let rows := filter (about V (ra_name a) n) l in
  faithful veq (d_dups d) (told V rows) (writes (rw_now w0) None [] (plain_part V i j tr)) /\
  Forall (fun r => r_kind V r = ra_kind a /\ r_key V r = None /\ r_status V r = SNone) rows.
Proof. exact plain_told. Qed.

(** The same for each key of a dictionary and each field of a dataclass. *)
Theorem C143_key : forall V veq is_none whole kname, (forall k k', kname k = kname k' -> k = k') ->
  forall (w0 w : rworld V) os tr, fresh V w0 -> Forall (rop_wf V) os -> rrun V veq is_none w0 os = (w, tr) ->
  forall save i j a n b d typ s l k, table V whole kname save w = inl l ->
  nth_error (rw_actors w) i = Some a -> nth_error (ra_comps a) j = Some (n, CKeyed b d typ s) ->
  kd_recording d = true -> (forall o, ~ In (o, KType) (keyed_part V i j tr)) ->
  kwrites k (rw_now w0) [] (keyed_part V i j tr) <> [] ->
  let rows := filter (about_key V (ra_name a) n (kname k)) l in
  faithful veq false (told V rows) (kwrites k (rw_now w0) [] (keyed_part V i j tr)) /\
  Forall (fun r => r_kind V r = ra_kind a /\ r_status V r = SNone) rows.
Proof. exact keyed_told. Qed.

(** A state that is not recorded has one row with its last value if asked for, else none. *)
Theorem C143_not_recorded : forall V veq is_none whole kname, (forall k k', kname k = kname k' -> k = k') ->
  forall (w0 w : rworld V) os tr, fresh V w0 -> Forall (rop_wf V) os -> rrun V veq is_none w0 os = (w, tr) ->
  forall save i j a n d typ s l, table V whole kname save w = inl l ->
  nth_error (rw_actors w) i = Some a -> nth_error (ra_comps a) j = Some (n, CPlain d typ s) ->
  d_recording d = false -> forall v asg, assigned [] (plain_part V i j tr) = v :: asg ->
  filter (about V (ra_name a) n) l = if save then [mkRow V (ra_name a) (ra_kind a) n None 0 v SLastSeen] else [].
Proof. exact static_told. Qed.

(** Nothing else is in it. *)
Theorem C143_nothing_else : forall V veq is_none whole kname, (forall k k', kname k = kname k' -> k = k') ->
  forall (w0 w : rworld V) os tr, fresh V w0 -> Forall (rop_wf V) os -> rrun V veq is_none w0 os = (w, tr) ->
  forall save l r, table V whole kname save w = inl l -> In r l ->
  exists a n c, In a (rw_actors w) /\ In (n, c) (ra_comps a) /\
    r_name V r = ra_name a /\ r_kind V r = ra_kind a /\ r_state V r = n.
Proof. exact only. Qed.

(** There is a table whenever each state was given a value and nothing was refused for its
    type; actors and states keep their names. *)
Theorem C143_made : forall V veq is_none whole kname, (forall k k', kname k = kname k' -> k = k') ->
  forall (w0 w : rworld V) os tr, fresh V w0 -> Forall (rop_wf V) os -> rrun V veq is_none w0 os = (w, tr) ->
  (forall i j n c, comp_at w i j = Some (n, c) -> given V i j tr c) ->
  forall save, exists l, table V whole kname save w = inl l.
Proof. intros V veq is_none whole kname K w0 w os tr F Wf R G save. eapply made_given; eassumption. Qed.
Theorem C143_names : forall V veq is_none (w0 w : rworld V) os tr, rrun V veq is_none w0 os = (w, tr) ->
  map (fun a => (ra_name a, ra_kind a, map fst (ra_comps a))) (rw_actors w) =
  map (fun a => (ra_name a, ra_kind a, map fst (ra_comps a))) (rw_actors w0).
Proof. intros. eapply run_shape. eassumption. Qed.

(** *** Examples *)
Fixpoint bits (p : positive) : string :=
  match p with xH => "." | xO p => append "0" (bits p) | xI p => append "1" (bits p) end.
Definition zname (z : Z) : string := match z with Z0 => "0" | Zpos p => append "+" (bits p) | Zneg p => append "-" (bits p) end.
Lemma bits_inj : forall p q, bits p = bits q -> p = q.
Proof. induction p as [p IH|p IH|]; intros [q|q|] H; cbn in H; try discriminate; try reflexivity; injection H as H; f_equal; apply IH; exact H. Qed.
Lemma zname_inj : forall k k', zname k = zname k' -> k = k'.
Proof. intros [|p|p] [|q|q] H; cbn in H; try discriminate; try reflexivity; injection H as H; f_equal; apply bits_inj; exact H. Qed.
Definition ex_whole (_ : list (key * Z)) : Z := 0%Z.
Definition small (v : Z) : bool := (v <? 100)%Z.
Definition ex_plain (r : bool) : comp Z := CPlain (mkDef false r false) small (sinit 0 []).
Definition ex_items : comp Z := CKeyed true (mkKD true false []) small (kvinit 0).
Definition ex_w0 : rworld Z := mkRW 0
  [mkRA "a" "Truck" [("fuel", ex_plain true); ("crew", ex_plain false)]%string;
   mkRA "b" "Depot" [("items", ex_items); ("fuel", ex_plain true)]%string].
Definition ex_os : list (rop Z) :=
  [RPlain 0 0 (SAssign 5%Z); RPlain 0 1 (SAssign 2%Z); RKeyed 1 0 (KInit [(1, 10); (2, 20)]%Z); RPlain 1 1 (SAssign 50%Z);
   RTime 3; RPlain 0 0 (SAssign 4%Z); RPlain 0 0 (SAssign 4%Z); RPlain 0 0 (SAssign 400%Z); RKeyed 1 0 (KSetItem 2%Z 21%Z); RPlain 0 1 (SAssign 3%Z);
   RTime 4; RKeyed 1 0 (KSetItem 7%Z 70%Z); RPlain 0 0 SRecord].
Notation ex_run os := (rrun Z Z.eqb (fun _ => false) ex_w0 os).
Notation ex_table save os := (table Z ex_whole zname save (fst (ex_run os))).
Definition row0 (n k s : string) (key : option string) (t : Q) (v : Z) (st : status) : row Z := mkRow Z n k s key t v st.

Example C143_ex_fresh : fresh Z ex_w0.
Proof.
  split; [vm_compute; repeat constructor; cbn; intuition congruence|].
  intros a [<-|[<-|[]]]; (split; [vm_compute; repeat constructor; cbn; intuition congruence|]);
    intros n c [E|[E|[]]]; injection E as <- <-; (split; [reflexivity|discriminate]).
Qed.
Example C143_ex_wf : Forall (rop_wf Z) ex_os.
Proof. vm_compute. repeat constructor; cbn; intuition congruence. Qed.
Example C143_ex_table : ex_table true ex_os = inl
  [row0 "a" "Truck" "fuel" None 0 5 SNone; row0 "a" "Truck" "fuel" None 3 4 SNone; row0 "a" "Truck" "fuel" None 4 4 SNone;
   row0 "a" "Truck" "crew" None 0 3 SLastSeen;
   row0 "b" "Depot" "items" (Some (zname 1)) 0 10 SNone;
   row0 "b" "Depot" "items" (Some (zname 2)) 0 20 SNone; row0 "b" "Depot" "items" (Some (zname 2)) 3 21 SNone;
   row0 "b" "Depot" "items" (Some (zname 7)) 4 70 SNone;
   row0 "b" "Depot" "fuel" None 0 50 SNone].
Proof. vm_compute. reflexivity. Qed.
Example C143_ex_writes : writes 0 None [] (plain_part Z 0 0 (snd (ex_run ex_os))) = [(4, 4%Z); (3, 4%Z); (3, 4%Z); (0, 5%Z)] /\
  kwrites 2%Z 0 [] (keyed_part Z 1 0 (snd (ex_run ex_os))) = [(3, 21%Z); (0, 20%Z)].
Proof. vm_compute. split; reflexivity. Qed.
Example C143_ex_given : forall i j n c, comp_at (fst (ex_run ex_os)) i j = Some (n, c) -> given Z i j (snd (ex_run ex_os)) c.
Proof.
  intros i j n c H. destruct i as [|[|i]]; [| |destruct i; discriminate H]; (destruct j as [|[|j]]; [| |destruct j; discriminate H]); vm_compute in H; injection H as <- <-.
  - vm_compute. discriminate.
  - vm_compute. discriminate.
  - cbn [given]. vm_compute (keyed_part Z 1 0 _). split.
    + exists [(1, 10); (2, 20)]%Z. left. left. reflexivity.
    + intros o I. repeat (destruct I as [I|I]; [discriminate I|]). destruct I.
  - vm_compute. discriminate.
Qed.

(** C144: there is no table for some runs that go on without noticing: a value of the wrong
    type refused for a new key of a dictionary is nevertheless in it, and create_table
    fails, ... *)
Theorem C144_refused_new_key_refuted : exists os tr, Forall (rop_wf Z) os /\ snd (ex_run os) = tr /\
  In (RKeyed 1 0 (KSetItem 9%Z 900%Z), RK KType) tr /\ ex_table false os = inr AssertionError.
Proof.
  exists (ex_os ++ [RKeyed 1 0 (KSetItem 9%Z 900%Z)]), (snd (ex_run (ex_os ++ [RKeyed 1 0 (KSetItem 9%Z 900%Z)]))).
  split; [vm_compute; repeat constructor; cbn; intuition congruence|]. split; [reflexivity|].
  split; [vm_compute; repeat (first [left; reflexivity|right])|vm_compute; reflexivity].
Qed.
(** ... and for a key it has, the dictionary holds what the table does not show. *)
Theorem C144_refused_value_refuted : exists os l m b d typ s, ex_table false os = inl l /\
  comp_at (fst (ex_run os)) 1 0 = Some ("items"%string, CKeyed b d typ s) /\ kv_dict s = Some m /\ kget 1%Z m = Some 900%Z /\
  told Z (filter (about_key Z "b" "items" (zname 1)) l) = [(0, 10%Z)].
Proof.
  exists (ex_os ++ [RKeyed 1 0 (KSetItem 1%Z 900%Z)]). do 6 eexists. split; [vm_compute; reflexivity|].
  split; [vm_compute; reflexivity|]. split; [reflexivity|]. split; reflexivity.
Qed.
(** A state that is not recorded is shown at time 0 with a value it got later. *)
Theorem C144_time_zero_refuted : exists os l v, ex_table true os = inl l /\
  filter (about Z "a" "crew") l = [row0 "a" "Truck" "crew" None 0 v SLastSeen] /\
  writes 0 None [] (plain_part Z 0 1 (snd (ex_run os))) = [(3, v); (0, 2%Z)] /\ v <> 2%Z.
Proof. exists ex_os. do 2 eexists. split; [vm_compute; reflexivity|]. split; [reflexivity|]. split; [vm_compute; reflexivity|discriminate]. Qed.

Print Assumptions C143_plain.
Print Assumptions C143_key.
Print Assumptions C143_not_recorded.
Print Assumptions C143_nothing_else.
Print Assumptions C143_made.
Print Assumptions C143_names.
Print Assumptions C144_refused_new_key_refuted.
Print Assumptions C144_refused_value_refuted.
Print Assumptions C144_time_zero_refuted.
