(** Model of an actor's knowledge: actor.py:567-596,619-713 and the knowledge
    events of actor.py:1152-1202.  Logging is left out.  Names are [key]s; the
    dictionary keeps insertion order like python's. *)
From Verif Require Import Common StateModel.

Section Knowledge.
Variable V : Type.                     (* knowledge values that are not events *)

(** A stored object: a UPSTAGE event (by number), None, or anything else. *)
Inductive kval := KEvent (e : nat) | KNone | KOther (v : V).

(** An Event: how far its simpy event is, and _payload (events.py:778-798). *)
Inductive kstat := KPend | KTrig | KDone.   (* neither; triggered; processed *)
Record kev := mkKE { x_stat : kstat; x_load : option V }.
Definition knew : kev := mkKE KPend None.

(** [n_events]: the events created so far. *)
Record kst := mkKn {
  n_dict : list (key * kval);          (* self._knowledge *)
  n_events : list kev;
  n_rehearsing : bool }.               (* self._is_rehearsing *)

Definition ninit (rehearsing : bool) : kst := mkKn [] [] rehearsing.

Inductive nout :=
| NOk
| NValue (v : kval)                    (* returned *)
| NAbsent                              (* returned None because the name is absent *)
| NMap (l : list (key * option kval))  (* returned dictionary; None: absent *)
| NEvent (e : nat)
| NSimError                            (* SimulationError *)
| NRuntime                             (* RuntimeError: the event was already triggered *)
| NComplete.                           (* SimulationError: the event was already processed *)

(** [del d[k]] *)
Definition kdel {X} (k : key) (l : list (key * X)) : list (key * X) :=
  filter (fun p => negb (Z.eqb (fst p) k)) l.
Definition kmem {X} (k : key) (l : list (key * X)) : bool :=
  match kget k l with Some _ => true | None => false end.

Definition with_dict (s : kst) (d : list (key * kval)) : kst := mkKn d (n_events s) (n_rehearsing s).

(** actor.py:577-579; [None] stands for the SimulationError. *)
Definition get_know (d : list (key * kval)) (n : key) (must : bool) : option (option kval) :=
  if must && negb (kmem n d) then None else Some (kget n d).

(** actor.py:638-645 *)
Definition set_know (d : list (key * kval)) (n : key) (v : kval) (ow : bool) : list (key * kval) * bool :=
  if kmem n d && negb ow then (d, false) else (kset n v d, true).

(** actor.py:659-662 *)
Definition clear_know (d : list (key * kval)) (n : key) : list (key * kval) * bool :=
  if negb (kmem n d) then (d, false) else (kdel n d, true).

(** actor.py:675-676, 686-687: the loops stop at the first failure, what was
    done stays done. *)
Fixpoint set_bulk (d : list (key * kval)) (l : list (key * kval)) (ow : bool) : list (key * kval) * bool :=
  match l with
  | [] => (d, true)
  | (n, v) :: l' => let '(d1, ok) := set_know d n v ow in
                    if ok then set_bulk d1 l' ow else (d1, false)
  end.
Fixpoint clear_bulk (d : list (key * kval)) (l : list key) : list (key * kval) * bool :=
  match l with
  | [] => (d, true)
  | n :: l' => let '(d1, ok) := clear_know d n in
               if ok then clear_bulk d1 l' else (d1, false)
  end.
(** actor.py:699: later duplicates overwrite earlier ones in the result. *)
Fixpoint get_bulk (d : list (key * kval)) (l : list key) (must : bool) (acc : list (key * option kval))
  : option (list (key * option kval)) :=
  match l with
  | [] => Some acc
  | n :: l' => match get_know d n must with
               | Some r => get_bulk d l' must (kset n r acc)
               | None => None
               end
  end.
(** actor.py:594-596 in the comprehension of 713. *)
Fixpoint take_bulk (d : list (key * kval)) (l : list key) (acc : list (key * option kval))
  : list (key * kval) * option (list (key * option kval)) :=
  match l with
  | [] => (d, Some acc)
  | n :: l' => match get_know d n true with
               | Some r => let '(d1, _) := clear_know d n in take_bulk d1 l' (kset n r acc)
               | None => (d, None)
               end
  end.

Inductive nop :=
| NGet (n : key) (must : bool)
| NSet (n : key) (v : kval) (ow : bool)
| NClear (n : key)
| NTake (n : key)                                   (* get_and_clear_knowledge *)
| NSetBulk (l : list (key * kval)) (ow : bool)
| NClearBulk (l : list key)
| NGetBulk (l : list key) (must : bool)
| NTakeBulk (l : list key)
| NCreateEvent (n : key)                            (* create_knowledge_event *)
| NSucceed (n : key) (payload : V)                  (* succeed_knowledge_event *)
| NFire (e : nat) (payload : V)                     (* the event's own succeed *)
| NReset (e : nat)                                  (* the event's own reset *)
| NProcessed (e : nat).                             (* not a call: simpy processes the event *)

Definition put_ev (e : nat) (x : kev) (evs : list kev) : list kev := firstn e evs ++ x :: skipn (S e) evs.
(** Event.succeed, events.py:821-830: the payload is stored before simpy's succeed, which
    raises RuntimeError for a triggered event. *)
Definition fire (evs : list kev) (e : nat) (p : V) : list kev * nout :=
  match nth_error evs e with
  | Some (mkKE KPend _) => (put_ev e (mkKE KTrig (Some p)) evs, NOk)
  | Some (mkKE KTrig _) => (put_ev e (mkKE KTrig (Some p)) evs, NRuntime)
  | _ => (evs, NComplete)
  end.
(** Event.reset, events.py:848-851: a new simpy event; the payload stays. *)
Definition reset_ev (evs : list kev) (e : nat) : list kev :=
  match nth_error evs e with Some x => put_ev e (mkKE KPend (x_load x)) evs | None => evs end.
Definition processed_ev (evs : list kev) (e : nat) : list kev :=
  match nth_error evs e with Some (mkKE KTrig p) => put_ev e (mkKE KDone p) evs | _ => evs end.

Definition nstep (s : kst) (o : nop) : kst * nout :=
  match o with
  | NGet n must =>
      (s, match get_know (n_dict s) n must with
          | None => NSimError
          | Some (Some v) => NValue v
          | Some None => NAbsent
          end)
  | NSet n v ow => let '(d, ok) := set_know (n_dict s) n v ow in
                   (with_dict s d, if ok then NOk else NSimError)
  | NClear n => let '(d, ok) := clear_know (n_dict s) n in
                (with_dict s d, if ok then NOk else NSimError)
  | NTake n =>
      match get_know (n_dict s) n true with
      | Some (Some v) => let '(d, ok) := clear_know (n_dict s) n in (with_dict s d, NValue v)
      | Some None => (s, NAbsent)
      | None => (s, NSimError)
      end
  | NSetBulk l ow => let '(d, ok) := set_bulk (n_dict s) l ow in
                     (with_dict s d, if ok then NOk else NSimError)
  | NClearBulk l => let '(d, ok) := clear_bulk (n_dict s) l in
                    (with_dict s d, if ok then NOk else NSimError)
  | NGetBulk l must => (s, match get_bulk (n_dict s) l must [] with Some m => NMap m | None => NSimError end)
  | NTakeBulk l => let '(d, r) := take_bulk (n_dict s) l [] in
                   (with_dict s d, match r with Some m => NMap m | None => NSimError end)
  | NCreateEvent n =>                                (* actor.py:1181-1185 *)
      let e := length (n_events s) in
      let '(d, ok) := set_know (n_dict s) n (KEvent e) (n_rehearsing s) in
      (mkKn d (n_events s ++ [knew]) (n_rehearsing s), if ok then NEvent e else NSimError)
  | NSucceed n p =>                                  (* actor.py:1196-1202 *)
      match kget n (n_dict s) with
      | None | Some KNone => (s, NSimError)
      | Some (KOther _) => (s, NSimError)
      | Some (KEvent e) =>
          let '(d, _) := clear_know (n_dict s) n in
          let '(evs, r) := fire (n_events s) e p in (mkKn d evs (n_rehearsing s), r)
      end
  | NFire e p => let '(evs, r) := fire (n_events s) e p in (mkKn (n_dict s) evs (n_rehearsing s), r)
  | NReset e => (mkKn (n_dict s) (reset_ev (n_events s) e) (n_rehearsing s), NOk)
  | NProcessed e => (mkKn (n_dict s) (processed_ev (n_events s) e) (n_rehearsing s), NOk)
  end.

Fixpoint nrun (s : kst) (os : list nop) : kst * list (nop * nout) :=
  match os with
  | [] => (s, [])
  | o :: os' => let '(s1, r) := nstep s o in
                let '(s2, tr) := nrun s1 os' in (s2, (o, r) :: tr)
  end.
End Knowledge.

Arguments KEvent {V}. Arguments KNone {V}. Arguments KOther {V}.
Arguments mkKn {V}. Arguments n_dict {V}. Arguments n_events {V}. Arguments n_rehearsing {V}. Arguments ninit {V}.
Arguments NOk {V}. Arguments NValue {V}. Arguments NAbsent {V}. Arguments NMap {V}. Arguments NEvent {V}.
Arguments NSimError {V}. Arguments NRuntime {V}.
Arguments NGet {V}. Arguments NSet {V}. Arguments NClear {V}. Arguments NTake {V}. Arguments NSetBulk {V}.
Arguments NClearBulk {V}. Arguments NGetBulk {V}. Arguments NTakeBulk {V}. Arguments NCreateEvent {V}.
Arguments NSucceed {V}. Arguments NFire {V}. Arguments NReset {V}. Arguments NProcessed {V}. Arguments NComplete {V}.
Arguments nstep {V}. Arguments nrun {V}. Arguments get_know {V}. Arguments set_know {V}. Arguments clear_know {V}.
Arguments set_bulk {V}. Arguments clear_bulk {V}. Arguments get_bulk {V}. Arguments take_bulk {V}. Arguments fire {V}. Arguments reset_ev {V}. Arguments processed_ev {V}. Arguments put_ev {V}.
Arguments mkKE {V}. Arguments x_stat {V}. Arguments x_load {V}. Arguments knew {V}.
Arguments with_dict {V}.
