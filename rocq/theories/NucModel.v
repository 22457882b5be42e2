(** Model of nucleus.py, of the broadcast of state changes (states.py:221-231, 255-267),
    of Actor.interrupt_network and the tables of networks of actor.py, and of the part
    of simpy's Process.interrupt they use.

    Tasks are processes; what they do is an arbitrary sequence of the operations below,
    those done by a process naming it as the active one.  Networks are objects (a clone
    shares them with the original); for a network only [_current_task_proc] matters
    here.  States have rational values; beside plain states there are
    LinearChangingStates, whose reading assigns. *)
From Coq Require Import String.
From Verif Require Import Common NetModel CtxModel.
Open Scope string_scope.
Open Scope list_scope.

(** NucleusInterrupt, nucleus.py:15-30; interrupts sent by interrupt_network carry
    whatever the caller gives *)
Inductive cause := CState (st : string) (v : Q) | CUser (x : nat).

(** TaskNetworkNucleus: the two defaultdicts of sets, nucleus.py:52-54 *)
Record nuc := mkN { n_states : list (string * list string);      (* _state_map *)
                    n_nets : list (string * list string) }.      (* _network_map *)
(** A state: value; if active, since when and the rate. *)
Record cell := mkCell { c_val : Q; c_act : option (Q * Q) }.
Record actor := mkA {
  a_nets : list (string * nat);        (* _task_networks: name -> network object *)
  a_nuc : option nuc;                  (* _state_listener *)
  a_cells : list (string * cell) }.
Record st := mkS {
  s_now : Q;
  s_actors : list actor;
  s_nets : list (option nat);          (* networks: _current_task_proc *)
  s_procs : list bool;                 (* task processes: has it not ended? *)
  s_pend : list (nat * cause) }.       (* Interruptions scheduled and not yet processed *)
Definition init : st := mkS 0 [] [] [] [].

Inductive op :=
| NActor (cells : list (string * cell))          (* a new actor *)
| NClone (act : option nat) (a : nat)            (* actor.clone() *)
| NNet (a : nat) (n : string)                    (* add_task_network(factory.make_network(n)) *)
| NDelNet (a : nat) (n : string)                 (* delete_task_network *)
| NAttach (a : nat)                              (* TaskNetworkNucleus(actor=a) *)
| NAdd (a : nat) (n : string) (sts : list string)(* nucleus.add_network *)
| NRemove (a : nat) (n : string)                 (* nucleus.remove_network *)
| NTask (x : nat)                                (* the loop of network object x starts a task process *)
| NEnd (p : nat)                                 (* task process p ends *)
| NTime (t : Q)                                  (* time passes *)
| NSet (act : option nat) (a : nat) (s : string) (v : Q)   (* actor.s = v *)
| NActivate (act : option nat) (a : nat) (s : string) (rate : Q)    (* activate_linear_state *)
| NDeactivate (act : option nat) (a : nat) (s : string)             (* deactivate_state *)
| NRead (act : option nat) (a : nat) (s : string)(* reading actor.s *)
| NInterrupt (act : option nat) (a : nat) (n : string) (x : nat)  (* interrupt_network(n, cause=x) *)
| NDeliver.                                      (* simpy processes the next Interruption *)
Inductive out :=
| XOk | XVal (v : Q)
| XHit (p : nat) (c : cause)                     (* the process is resumed with the interrupt *)
| XMissed (p : nat) (c : cause)                  (* it has ended meanwhile *)
| XUpstageErr | XSimErr | XRuntimeErr | XKeyErr
| XBad.                                          (* no such call *)

(** set.add *)
Definition sadd (x : string) (l : list string) : list string := if smem x l then l else l ++ [x].
Definition dget (k : string) (d : list (string * list string)) : list string :=
  match sget k d with Some l => l | None => [] end.

(** add_network, nucleus.py:56-76 *)
Definition nuc_add (u : nuc) (n : string) (sts : list string) : nuc :=
  fold_left (fun u s => mkN (sset s (sadd n (dget s (n_states u))) (n_states u))
                            (sset n (sadd s (dget n (n_nets u))) (n_nets u))) sts u.
(** remove_network, nucleus.py:78-93; set.remove raises KeyError: None *)
Definition nuc_remove (u : nuc) (n : string) : option nuc :=
  match fold_left (fun d s => match d with
                   | None => None
                   | Some d => if smem n (dget s d) then Some (sset s (filter (fun m => negb (String.eqb m n)) (dget s d)) d) else None
                   end) (dget n (n_nets u)) (Some (n_states u)) with
  | None => None
  | Some d => Some (mkN d (sdel n (n_nets u)))
  end.

Definition with_pend (s : st) (l : list (nat * cause)) : st :=
  mkS (s_now s) (s_actors s) (s_nets s) (s_procs s) l.
Definition with_actor (s : st) (a : nat) (x : actor) : st :=
  mkS (s_now s) (set_nth a x (s_actors s)) (s_nets s) (s_procs s) (s_pend s).
Definition same_proc (act : option nat) (p : nat) : bool :=
  match act with Some q => Nat.eqb q p | None => false end.
(** simpy events.py, Interruption.__init__: RuntimeError for a process that has ended
    or is the active one *)
Definition interrupt (s : st) (act : option nat) (p : nat) (c : cause) : st * out :=
  match nth_error (s_procs s) p with
  | Some true => if same_proc act p then (s, XRuntimeErr) else (with_pend s (s_pend s ++ [(p, c)]), XOk)
  | _ => (s, XRuntimeErr)
  end.
(** _current_task_proc of a network object *)
Definition current (s : st) (x : nat) : option nat :=
  match nth_error (s_nets s) x with Some (Some p) => Some p | _ => None end.

Section Nuc.
Variable order : list string -> list string.     (* in which order a set is run through *)

(** send_change, nucleus.py:95-111 *)
Fixpoint send (s : st) (act : option nat) (nets : list (string * nat)) (c : cause) (ns : list string) : st * out :=
  match ns with
  | [] => (s, XOk)
  | n :: ns' =>
      match sget n nets with
      | None => (s, XUpstageErr)
      | Some x =>
          match current s x with
          | None => send s act nets c ns'
          | Some p => let '(s1, e) := interrupt s act p c in
                      match e with XOk => send s1 act nets c ns' | _ => (s1, e) end
          end
      end
  end.
(** State._broadcast_change, states.py:221-231.  [_state_map.get(state, [])] does not
    make an entry. *)
Definition broadcast (s : st) (act : option nat) (a : nat) (k : string) (v : Q) : st * out :=
  match nth_error (s_actors s) a with
  | None => (s, XBad)
  | Some x =>
      match a_nuc x with
      | None => (s, XOk)
      | Some u => send s act (a_nets x) (CState k v) (order (dget k (n_states u)))
      end
  end.
(** State.__set__, states.py:246-267: the value is stored before the broadcast *)
Definition assign (s : st) (act : option nat) (a : nat) (k : string) (v : Q) : st * out :=
  match nth_error (s_actors s) a with
  | None => (s, XBad)
  | Some x =>
      match sget k (a_cells x) with
      | None => (s, XBad)
      | Some c => broadcast (with_actor s a (mkA (a_nets x) (a_nuc x) (sset k (mkCell v (c_act c)) (a_cells x)))) act a k v
      end
  end.
(** LinearChangingState._active, states.py:475-505: assigns, then notes the time *)
Definition read (s : st) (act : option nat) (a : nat) (k : string) : st * out :=
  match nth_error (s_actors s) a with
  | None => (s, XBad)
  | Some x =>
      match sget k (a_cells x) with
      | None => (s, XBad)
      | Some c =>
          match c_act c with
          | None => (s, XVal (c_val c))
          | Some (t, r) =>
              if Qltb (s_now s) t then (s, XSimErr)
              else let v := c_val c + (s_now s - t) * r in
                   let '(s1, e) := assign s act a k v in
                   match e, nth_error (s_actors s1) a with
                   | XOk, Some x1 => (with_actor s1 a (mkA (a_nets x1) (a_nuc x1) (sset k (mkCell v (Some (s_now s, r))) (a_cells x1))), XVal v)
                   | _, _ => (s1, e)
                   end
          end
      end
  end.
(** Actor.clone, actor.py:988-996: reads every state *)
Fixpoint read_all (s : st) (act : option nat) (a : nat) (ks : list string) (acc : list (string * cell)) : st * out * list (string * cell) :=
  match ks with
  | [] => (s, XOk, acc)
  | k :: ks' => match read s act a k with
                | (s1, XVal v) => read_all s1 act a ks' (acc ++ [(k, mkCell v None)])
                | (s1, e) => (s1, e, acc)
                end
  end.

Definition step (s : st) (o : op) : st * out :=
  match o with
  | NActor cells => (mkS (s_now s) (s_actors s ++ [mkA [] None (map (fun kc => (fst kc, mkCell (c_val (snd kc)) None)) cells)]) (s_nets s) (s_procs s) (s_pend s), XOk)
  | NClone act a =>
      match nth_error (s_actors s) a with
      | None => (s, XBad)
      | Some x =>
          match read_all s act a (map fst (a_cells x)) [] with
          | (s1, XOk, cells) =>                              (* actor.py:1034: the networks are shared *)
              (mkS (s_now s1) (s_actors s1 ++ [mkA (a_nets x) None cells]) (s_nets s1) (s_procs s1) (s_pend s1), XOk)
          | (s1, e, _) => (s1, e)
          end
      end
  | NNet a n =>                                              (* actor.py:714-725 *)
      match nth_error (s_actors s) a with
      | None => (s, XBad)
      | Some x => match sget n (a_nets x) with
                  | Some _ => (s, XSimErr)
                  | None => (mkS (s_now s) (set_nth a (mkA (sset n (List.length (s_nets s)) (a_nets x)) (a_nuc x) (a_cells x)) (s_actors s))
                                 (s_nets s ++ [None]) (s_procs s) (s_pend s), XOk)
                  end
      end
  | NDelNet a n =>                                           (* actor.py:911-923 *)
      match nth_error (s_actors s) a with
      | None => (s, XBad)
      | Some x => match sget n (a_nets x) with
                  | None => (s, XSimErr)
                  | Some _ => (with_actor s a (mkA (sdel n (a_nets x)) (a_nuc x) (a_cells x)), XOk)
                  end
      end
  | NAttach a =>                                             (* nucleus.py:35-40 *)
      match nth_error (s_actors s) a with
      | None => (s, XBad)
      | Some x => match a_nuc x with
                  | Some _ => (s, XUpstageErr)
                  | None => (with_actor s a (mkA (a_nets x) (Some (mkN [] [])) (a_cells x)), XOk)
                  end
      end
  | NAdd a n sts =>
      match nth_error (s_actors s) a with
      | None => (s, XBad)
      | Some x =>
          match a_nuc x, sget n (a_nets x) with
          | None, _ => (s, XBad)
          | _, None => (s, XUpstageErr)
          | Some u, Some _ => (with_actor s a (mkA (a_nets x) (Some (nuc_add u n sts)) (a_cells x)), XOk)
          end
      end
  | NRemove a n =>
      match nth_error (s_actors s) a with
      | None => (s, XBad)
      | Some x =>
          match a_nuc x, sget n (a_nets x) with
          | None, _ => (s, XBad)
          | _, None => (s, XUpstageErr)
          | Some u, Some _ =>
              match nuc_remove u n with
              | None => (s, XKeyErr)
              | Some u' => (with_actor s a (mkA (a_nets x) (Some u') (a_cells x)), XOk)
              end
          end
      end
  | NTask x =>                                               (* task_network.py:133-134 *)
      match nth_error (s_nets s) x with
      | None => (s, XBad)
      | Some _ => (mkS (s_now s) (s_actors s) (set_nth x (Some (List.length (s_procs s))) (s_nets s)) (s_procs s ++ [true]) (s_pend s), XOk)
      end
  | NEnd p => (mkS (s_now s) (s_actors s) (s_nets s) (set_nth p false (s_procs s)) (s_pend s), XOk)
  | NTime t => if Qltb t (s_now s) then (s, XBad) else (mkS t (s_actors s) (s_nets s) (s_procs s) (s_pend s), XOk)
  | NSet act a k v => assign s act a k v
  | NActivate act a k r =>                                   (* actor.py:312-338: set active, then read *)
      match nth_error (s_actors s) a with
      | None => (s, XBad)
      | Some x =>
          match sget k (a_cells x) with
          | None => (s, XBad)
          | Some c => match c_act c with
                      | Some _ => (s, XSimErr)
                      | None =>
                          let s1 := with_actor s a (mkA (a_nets x) (a_nuc x) (sset k (mkCell (c_val c) (Some (s_now s, r))) (a_cells x))) in
                          let '(s2, e) := read s1 act a k in (s2, match e with XVal _ => XOk | _ => e end)
                      end
          end
      end
  | NDeactivate act a k =>                                   (* actor.py:408-436: read, then not active *)
      match read s act a k with
      | (s1, XVal v) =>
          match nth_error (s_actors s1) a with
          | None => (s1, XBad)
          | Some x => (with_actor s1 a (mkA (a_nets x) (a_nuc x) (sset k (mkCell v None) (a_cells x))), XOk)
          end
      | (s1, e) => (s1, e)
      end
  | NRead act a k => read s act a k
  | NInterrupt act a n x =>                                  (* actor.py:868-878 *)
      match nth_error (s_actors s) a with
      | None => (s, XBad)
      | Some y => match sget n (a_nets y) with
                  | None => (s, XSimErr)
                  | Some w => match current s w with
                              | None => (s, XUpstageErr)
                              | Some p => interrupt s act p (CUser x)
                              end
                  end
      end
  | NDeliver =>                                              (* simpy Interruption._interrupt *)
      match s_pend s with
      | [] => (s, XBad)
      | (p, c) :: l => (with_pend s l, match nth_error (s_procs s) p with Some true => XHit p c | _ => XMissed p c end)
      end
  end.
Fixpoint run (s : st) (os : list op) : st :=
  match os with [] => s | o :: os' => run (fst (step s o)) os' end.
Fixpoint trace (s : st) (os : list op) : list (op * out) :=
  match os with [] => [] | o :: os' => (o, snd (step s o)) :: trace (fst (step s o)) os' end.
End Nuc.
