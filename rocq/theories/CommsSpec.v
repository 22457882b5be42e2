(** Vocabulary for the comms managers. *)
From Verif Require Import Common RouteModel RouteSpec CommsModel.

(** Of everything that was seen, what concerns message [i], with times. *)
Definition history (i : nat) (tr : list (nat * Q * out)) : list (Q * out) :=
  flat_map (fun e => if Nat.eqb (fst (fst e)) i then [(snd (fst e), snd e)] else []) tr.
Definition finished (p : proc) : Prop := p_phase p = TDone \/ p_phase p = TDropped \/ p_phase p = TRaised.
(** [k] attempts from [a] to [b] found the link blocked, the first at [t0], one
    every [rate]. *)
Definition waited (rate t0 : Q) (a b k : nat) (w : list (Q * out)) : Prop :=
  length w = k /\
  forall j e, nth_error w j = Some e -> snd e = OCheck a b true /\ fst e == t0 + inject_Z (Z.of_nat j) * rate.
(** Time a message is on its way per hop: none if send_time is negative. *)
Definition hop_time (g : mgr) : Q := if Qltb 0 (g_send g) then g_send g else 0.
Definition puts (h : list (Q * out)) : list (Q * nat * nat) :=
  flat_map (fun e => match snd e with OPut d s => [(fst e, d, s)] | _ => [] end) h.
(** The hops made, as (from, to). *)
Definition moves (h : list (Q * out)) : list (nat * nat) :=
  flat_map (fun e => match snd e with OMoved a b => [(a, b)] | _ => [] end) h.
Definition never_blocked (h : list (Q * out)) : Prop := forall t a b, ~ In (t, OCheck a b true) h.
Definition gave_up (h : list (Q * out)) (d : nat) : Prop := exists t a, In (t, OStop a d) h.
(** The configurations set in the course of a run. *)
Definition all_confs (P : conf -> Prop) (os : list mop) : Prop := forall c, In (OConf c) os -> P c.

(** The edges of a walk. *)
Fixpoint legs (x : nat) (p : list nat) : list (nat * nat) :=
  match p with [] => [] | y :: p' => (x, y) :: legs y p' end.
(** No longer than any other way. *)
Definition quickest (E : nat -> nat -> Prop) (x : nat) (v : list nat) (y : nat) : Prop :=
  walk E x v y /\ forall p, walk E x p y -> (length v <= length p)%nat.
(** How often message [i]'s process moved in a run. *)
Definition moves_now (g : mgr) (s : mst) (o : mop) (i : nat) : bool :=
  match o with
  | OGo j => Nat.eqb j i && match nth_error (ms_procs s) i with
                            | Some p => (active (p_phase p) || idle s) && match go g (ms_conf s) (ms_now s) p with Some _ => true | None => false end
                            | None => false
                            end
  | _ => false
  end.
Fixpoint busy (g : mgr) (s : mst) (os : list mop) (i : nat) : nat :=
  match os with
  | [] => 0
  | o :: os' => ((if moves_now g s o i then 1 else 0) + busy g (fst (mstep g s o)) os' i)%nat
  end.
(** Waiting for a time to come. *)
Definition waits_until (p : proc) (due : Q) : Prop :=
  match p_phase p with TRetry _ _ _ _ d | TSend _ _ _ d => d = due | _ => False end.
(** The attempts of a message: when, and whether it was blocked. *)
Definition attempts (h : list (Q * out)) : list (Q * bool) :=
  flat_map (fun e => match snd e with OCheck _ _ b => [(fst e, b)] | _ => [] end) h.
(** [l]: one attempt every [rate] from [t0], with the outcomes [bs]. *)
Definition tried_every (rate t0 : Q) (bs : list bool) (l : list (Q * bool)) : Prop :=
  map snd l = bs /\ forall j e, nth_error l j = Some e -> fst e == t0 + inject_Z (Z.of_nat j) * rate.
(** The messages put into the incoming store in a run, in order. *)
Fixpoint sends (g : mgr) (s : mst) (os : list mop) : list (nat * nat) :=
  match os with
  | [] => []
  | o :: os' => match o with OSend a b => if idle s then [(a, b)] else [] | _ => [] end ++ sends g (fst (mstep g s o)) os'
  end.
(** Connections that are not blocked. *)
Definition open_link (net : network) (c : conf) (x y : nat) : Prop := connected net x y /\ blocked c x y = false.
