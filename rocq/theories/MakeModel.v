(** Model of making actors: the states of an Actor class (actor.py:187-251), the
    initialisation of the states (actor.py:64-103, 105-156), the setting of each kind of
    state (states.py:245-267, 285-314, 997-1059, 1155-1170, 1303-1312, 1385-1392,
    1467-1527), and Actor.clone (actor.py:957-1040) as far as the states and class
    attributes go (knowledge, queues and histories are in CloneModel).

    Names, classes and strings are numbers.  Objects live in a heap.  A State object is
    bound to one name in one class.  A default_factory makes a new object (or returns
    None); what it makes may depend on how many were made before, as with a random
    generator.  Recording, callbacks and nuclei are in StateModel and NucModel; states are
    not active and mimic nothing. *)
From Coq Require Import ZArith List Bool Arith.
Import ListNotations.

Definition name := nat.
(** "log", "self", "name", "debug_log", "debug_log_time", "initial_knowledge", "kind",
    "modes" *)
Definition LOG : name := 0. Definition SELF : name := 1. Definition NAME : name := 2.
Definition DEBUG_LOG : name := 3. Definition DEBUG_LOG_TIME : name := 4. Definition KNOWLEDGE : name := 5.
Definition KIND : name := 6. Definition MODES : name := 7.

(** A value: None, a class, a string, a list of strings, or an object. *)
Inductive val := VNone | VClass (c : nat) | VStr (s : nat) | VList (l : list nat) | VObj (o : nat).
(** An object: a store or container of a class, made with keyword arguments and holding
    something; a dictionary; anything else. *)
Inductive obj :=
| ORes (c : nat) (kw : list (name * val)) (held : Z)
| ODict (d : list (name * val))
| OPlain (c : nat) (z : Z).
Inductive err := UpstageErr | SimulationErr | TypeErr | ValueErr | AttributeErr | KeyErr.
Inductive res (A : Type) := Ok (x : A) | Err (e : err).
Arguments Ok {A}. Arguments Err {A}.

Inductive skind := Plain | Resource | Comms (modes : val) | Dict | Data | Multi.
Record sdef := mkDef {
  s_kind : skind; s_default : val; s_factory : option nat; s_no_init : bool; s_frozen : bool;
  s_allow_none : bool; s_types : list nat; s_recs : list name; s_kwargs : list (name * val) }.
(** What a class body binds a name to. *)
Inductive member := MState (s : nat) | MFunction | MProperty (setter : bool) | MClassMethod | MValue (v : val) | MPrivate.

Fixpoint aget {A} (n : name) (l : list (name * A)) : option A :=
  match l with [] => None | (m, v) :: l' => if Nat.eqb n m then Some v else aget n l' end.
(** d[n] = v *)
Fixpoint aset {A} (n : name) (v : A) (l : list (name * A)) : list (name * A) :=
  match l with
  | [] => [(n, v)]
  | (m, w) :: l' => if Nat.eqb n m then (n, v) :: l' else (m, w) :: aset n v l'
  end.
Definition adel {A} (n : name) (l : list (name * A)) : list (name * A) := filter (fun e => negb (Nat.eqb n (fst e))) l.
Definition amem {A} (n : name) (l : list (name * A)) : bool := existsb (fun e => Nat.eqb n (fst e)) l.
(** d.update(e) *)
Fixpoint aupdate {A} (d e : list (name * A)) : list (name * A) :=
  match e with [] => d | (n, v) :: e' => aupdate (aset n v d) e' end.
Definition memn (n : nat) (l : list nat) : bool := existsb (Nat.eqb n) l.
Definition setn {A} (i : nat) (v : A) (l : list A) : list A := firstn i l ++ match skipn i l with [] => [] | _ :: r => v :: r end.

Section Make.
(** issubclass; the classes of None, of classes, strings, lists and dictionaries *)
Variable sub : nat -> nat -> bool.
Variable NONE TYPE STR LIST DICT : nat.
(** issubclass(c, Store | Container) *)
Variable resource_class : nat -> bool.
(** Whether the constructor of a resource class takes these arguments, and what the new
    resource holds. *)
Variable accepts : nat -> list (name * val) -> bool.
Variable initial : nat -> list (name * val) -> Z.
(** What a factory makes at its [k]-th use: an object of a class, or None. *)
Variable produce : nat -> nat -> option (nat * Z).
Variable def : nat -> sdef.
(** The order in which a set of names is gone through. *)
Variable order : list name -> list name.

(** An actor: class, instance __dict__, what _memory_for_... and ...__mode_names_ hold,
    the ResourceStates it is in _been_set of, and what clone() set on it. *)
Record actor := mkActor {
  a_class : nat; a_dict : list (name * val); a_memory : list (name * list (name * val));
  a_modes : list (name * list nat); a_set : list name; a_attrs : list (name * member) }.
(** Heap, number of objects made by factories, and the actor being made. *)
Record st := mkSt { heap : list obj; draws : nat; me : actor }.

(** ** Classes *)
(** A class is given by the dictionaries of its MRO, most basic last. *)
Definition class := list (list (name * member)).
(** The loop of __init_subclass__, actor.py:196-202 *)
Fixpoint add_states (d : list (name * member)) (acc : list (name * nat)) : res (list (name * nat)) :=
  match d with
  | [] => Ok acc
  | (n, MState s) :: d' => if amem n acc then Err ValueErr else add_states d' (acc ++ [(n, s)])
  | _ :: d' => add_states d' acc
  end.
Fixpoint all_states (ds : list (list (name * member))) (acc : list (name * nat)) : res (list (name * nat)) :=
  match ds with
  | [] => Ok acc
  | d :: ds' => match add_states d acc with Err e => Err e | Ok acc' => all_states ds' acc' end
  end.
(** __init_subclass__, actor.py:187-251.  The new signature may not have a name twice. *)
Definition init_subclass (c : class) : res (list (name * nat)) :=
  match all_states (rev c) [] with
  | Err e => Err e
  | Ok l =>
      if existsb (fun e => memn (fst e) [SELF; NAME; DEBUG_LOG; DEBUG_LOG_TIME] && negb (s_no_init (def (snd e)))) l
      then Err ValueErr else Ok l
  end.
(** Attribute lookup in the classes *)
Fixpoint lookup (n : name) (c : class) : option member :=
  match c with [] => None | d :: c' => match aget n d with Some m => Some m | None => lookup n c' end end.

(** ** Values *)
Definition as_dict (h : list obj) (v : val) : option (list (name * val)) :=
  match v with VObj o => match nth_error h o with Some (ODict d) => Some d | _ => None end | _ => None end.
Definition type_of (h : list obj) (v : val) : nat :=
  match v with
  | VNone => NONE | VClass _ => TYPE | VStr _ => STR | VList _ => LIST
  | VObj o => match nth_error h o with Some (ORes c _ _) => c | Some (OPlain c _) => c | Some (ODict _) => DICT | None => NONE end
  end.
Definition isinstance (h : list obj) (v : val) (types : list nat) : bool := existsb (sub (type_of h v)) types.
(** State._type_check, states.py:236-243 *)
Definition type_check (h : list obj) (types : list nat) (v : val) : bool :=
  match types with [] => true | _ => isinstance h v types end.

(** ** Setting states *)
Definition with_me (x : st) (a : actor) : st := mkSt (heap x) (draws x) a.
Definition store (n : name) (v : val) (x : st) : st :=
  let a := me x in with_me x (mkActor (a_class a) (aset n v (a_dict a)) (a_memory a) (a_modes a) (a_set a) (a_attrs a)).
Definition alloc (o : obj) (x : st) : st * nat := (mkSt (heap x ++ [o]) (draws x) (me x), length (heap x)).
Definition have_set (n : name) (x : st) : st :=
  let a := me x in with_me x (mkActor (a_class a) (a_dict a) (a_memory a) (a_modes a) (n :: a_set a) (a_attrs a)).
Definition remember (n : name) (kw : list (name * val)) (x : st) : st :=
  let a := me x in with_me x (mkActor (a_class a) (a_dict a) (aset n kw (a_memory a)) (a_modes a) (a_set a) (a_attrs a)).
Definition set_modes (n : name) (l : list nat) (x : st) : st :=
  let a := me x in with_me x (mkActor (a_class a) (a_dict a) (a_memory a) (aset n l (a_modes a)) (a_set a) (a_attrs a)).
Definition is_none (v : option val) : bool := match v with None | Some VNone => true | _ => false end.

(** State.__set__, states.py:245-267 *)
Definition set_plain (d : sdef) (n : name) (v : val) (x : st) : st * option err :=
  if s_frozen d && negb (is_none (aget n (a_dict (me x)))) then (x, Some SimulationErr) else
  if type_check (heap x) (s_types d) v then (store n v x, None) else (x, Some TypeErr).
(** ResourceState.__set__, states.py:997-1049 *)
Definition set_resource (d : sdef) (n : name) (v : val) (x : st) : st * option err :=
  if memn n (a_set (me x)) then (x, Some UpstageErr) else
  match as_dict (heap x) v with
  | None => if isinstance (heap x) v (s_types d) then (have_set n (store n v x), None) else (x, Some UpstageErr)
  | Some kv =>
      match (match aget KIND kv with Some k => k | None => s_default d end) with
      | VNone => (x, Some UpstageErr)
      | VClass c =>
          if match s_types d with [] => false | _ => negb (existsb (sub c) (s_types d)) end then (x, Some UpstageErr) else
          let kw := aupdate (s_kwargs d) (adel KIND kv) in
          if accepts c kw then
            let '(x1, o) := alloc (ORes c kw (initial c kw)) x in
            (remember n kw (have_set n (store n (VObj o) x1)), None)
          else (x, Some UpstageErr)
      | _ => (x, Some TypeErr)
      end
  end.
(** value.pop("modes"), which changes the dictionary of the caller *)
Definition pop_modes (v : val) (x : st) : st :=
  match v with
  | VObj o => match nth_error (heap x) o with
              | Some (ODict d) => mkSt (setn o (ODict (adel MODES d)) (heap x)) (draws x) (me x)
              | _ => x
              end
  | _ => x
  end.
(** CommunicationStore.__set__, states.py:1155-1170; modes are None, a string or a list (a
    tuple, set or dictionary of strings would do as well, which is not modelled) *)
Definition set_comms (modes : val) (d : sdef) (n : name) (v : val) (x : st) : st * option err :=
  let given := match as_dict (heap x) v with Some kv => aget MODES kv | None => None end in
  let x1 := match given with Some _ => pop_modes v x | None => x end in
  let m := match given with Some m => m | None => modes end in
  match set_resource d n v x1 with
  | (x2, Some e) => (x2, Some e)
  | (x2, None) =>
      match m with
      | VNone => (x2, Some SimulationErr)
      | VStr s => (set_modes n [s] x2, None)
      | VList l => (set_modes n l x2, None)
      | _ => (x2, Some TypeErr)
      end
  end.
(** The loop of DictionaryState.__set__, states.py:1308-1310: what is stored, and whether
    all was *)
Fixpoint typed (h : list obj) (types : list nat) (kv : list (name * val)) : list (name * val) * bool :=
  match kv with
  | [] => ([], true)
  | (k, v) :: kv' => if type_check h types v then let '(r, b) := typed h types kv' in ((k, v) :: r, b) else ([], false)
  end.
(** DictionaryState.__set__, states.py:1303-1312; [kv] are the items *)
Definition set_items (d : sdef) (n : name) (kv : list (name * val)) (x : st) : st * option err :=
  let '(r, b) := typed (heap x) (s_types d) kv in
  let '(x1, o) := alloc (ODict r) x in
  (store n (VObj o) x1, if b then None else Some TypeErr).
Definition set_dict (d : sdef) (n : name) (v : val) (x : st) : st * option err :=
  if amem n (a_dict (me x)) then (x, Some SimulationErr) else
  match as_dict (heap x) v with Some kv => set_items d n kv x | None => (x, Some AttributeErr) end.
(** DataclassState.__set__, states.py:1385-1392 *)
Definition set_data (d : sdef) (n : name) (v : val) (x : st) : st * option err :=
  if amem n (a_dict (me x)) then (x, Some SimulationErr) else
  if type_check (heap x) (s_types d) v then (store n v x, None) else (x, Some TypeErr).
(** MultiStoreState._type_checker, states.py:1467-1479 *)
Definition type_checker (types : list nat) (v : val) : bool :=
  forallb resource_class types &&
  match types with
  | [] => true
  | _ => match v with VClass c => existsb (sub c) types | _ => true end
  end.
(** MultiStoreState._make_resource, states.py:1481-1503 *)
Definition make_resource (d : sdef) (v : val) (x : st) : st * res val :=
  match as_dict (heap x) v with
  | None => if type_checker (s_types d) v then (x, Ok v) else (x, Err UpstageErr)
  | Some kv =>
      let kw := aupdate (s_kwargs d) (adel KIND kv) in
      match (match aget KIND kv with Some k => k | None => s_default d end) with
      | VNone => (x, Err UpstageErr)
      | VClass c =>
          if type_checker (s_types d) (VClass c) then
            if accepts c kw then let '(x1, o) := alloc (ORes c kw (initial c kw)) x in (x1, Ok (VObj o))
            else (x, Err UpstageErr)
          else (x, Err UpstageErr)
      | _ => (x, Err UpstageErr)
      end
  end.
Fixpoint make_all (d : sdef) (kv : list (name * val)) (x : st) : st * res (list (name * val)) :=
  match kv with
  | [] => (x, Ok [])
  | (k, v) :: kv' =>
      match make_resource d v x with
      | (x1, Err e) => (x1, Err e)
      | (x1, Ok v1) =>
          match make_all d kv' x1 with
          | (x2, Err e) => (x2, Err e)
          | (x2, Ok r) => (x2, Ok ((k, v1) :: r))
          end
      end
  end.
(** {name: {} for name in value}: new dictionaries *)
Fixpoint blanks (l : list nat) (x : st) : st * list (name * val) :=
  match l with
  | [] => (x, [])
  | n :: l' => let '(x1, o) := alloc (ODict []) x in
               let '(x2, r) := blanks l' x1 in (x2, (n, VObj o) :: r)
  end.
(** MultiStoreState.__set__, states.py:1505-1523, given a dictionary or a list of
    different names (a string, which is a list of characters, is not modelled) *)
Definition set_multi (d : sdef) (n : name) (v : val) (x : st) : st * option err :=
  if amem n (a_dict (me x)) then (x, Some SimulationErr) else
  match (match as_dict (heap x) v, v with
         | Some kv, _ => Some (x, kv)
         | None, VList l => Some (blanks l x)
         | _, _ => None
         end) with
  | None => (x, Some TypeErr)
  | Some (x1, kv) =>
      match make_all d kv x1 with
      | (x2, Err e) => (x2, Some e)
      | (x2, Ok kv') => set_items d n kv' x2
      end
  end.
Definition set_state (s : nat) (n : name) (v : val) (x : st) : st * option err :=
  let d := def s in
  match s_kind d with
  | Plain => set_plain d n v x
  | Resource => set_resource d n v x
  | Comms modes => set_comms modes d n v x
  | Dict => set_dict d n v x
  | Data => set_data d n v x
  | Multi => set_multi d n v x
  end.
(** setattr on the actor: the nearest class decides *)
Definition set_attr (c : class) (n : name) (v : val) (x : st) : st * option err :=
  match lookup n c with
  | Some (MState s) => set_state s n v x
  | Some (MProperty false) => (x, Some AttributeErr)
  | Some (MProperty true) => (x, None)
  | _ => (store n v x, None)
  end.
(** State.has_default, states.py:306-314; MultiStoreState.has_default, 1525-1527 *)
Definition has_default (d : sdef) : bool :=
  match s_kind d with
  | Multi => false
  | _ => s_allow_none d || negb (is_none (Some (s_default d))) || match s_factory d with Some _ => true | None => false end
  end.
(** State._set_default, states.py:285-304; ResourceState._set_default, 1051-1059 *)
Definition set_default (s : nat) (n : name) (x : st) : st * option err :=
  let d := def s in
  match s_kind d with
  | Resource | Comms _ => let '(x1, o) := alloc (ODict []) x in set_state s n (VObj o) x1
  | _ =>
      match s_factory d with
      | Some f =>
          let x1 := mkSt (heap x) (S (draws x)) (me x) in
          match produce f (draws x) with
          | Some (c, z) => let '(x2, o) := alloc (OPlain c z) x1 in set_state s n (VObj o) x2
          | None => set_state s n VNone x1
          end
      | None =>
          match s_default d with
          | VNone => if s_allow_none d then (x, None) else (x, Some SimulationErr)
          | v => set_state s n v x
          end
      end
  end.

(** ** Actors *)
(** The first loop of __init_states, actor.py:65-78 *)
Fixpoint set_given (c : class) (defs : list (name * nat)) (kw : list (name * val)) (x : st) : st * option err :=
  match kw with
  | [] => (x, None)
  | (n, v) :: kw' =>
      match aget n defs with
      | Some s =>
          if s_no_init (def s) then (x, Some SimulationErr) else
          match set_attr c n v x with
          | (x1, Some e) => (x1, Some e)
          | (x1, None) => set_given c defs kw' x1
          end
      | None => (x, Some UpstageErr)
      end
  end.
(** The second, actor.py:79-85, and the check for missing ones *)
Fixpoint set_defaults (defs : list (name * nat)) (unseen : list name) (x : st) : st * option err :=
  match unseen with
  | [] => (x, None)
  | n :: l =>
      match aget n defs with
      | Some s =>
          if has_default (def s) then
            match set_default s n x with
            | (x1, Some e) => (x1, Some e)
            | (x1, None) => set_defaults defs l x1
            end
          else set_defaults defs l x
      | None => set_defaults defs l x
      end
  end.
Definition unseen (defs : list (name * nat)) (kw : list (name * val)) : list name :=
  filter (fun n => negb (amem n kw)) (map fst defs).
Definition missing (defs : list (name * nat)) (kw : list (name * val)) : bool :=
  existsb (fun n => match aget n defs with Some s => negb (has_default (def s)) | None => false end) (unseen defs kw).
(** recording_names, actor.py:95-100 *)
Definition recording_names (defs : list (name * nat)) : list name :=
  flat_map (fun e => fst e :: s_recs (def (snd e))) defs.
Fixpoint repeated (l : list name) : bool :=
  match l with [] => false | n :: l' => memn n l' || repeated l' end.
(** __init_states, actor.py:64-103 *)
Definition init_states (c : class) (defs : list (name * nat)) (kw : list (name * val)) (x : st) : st * option err :=
  match set_given c defs kw x with
  | (x1, Some e) => (x1, Some e)
  | (x1, None) =>
      match set_defaults defs (order (unseen defs kw)) x1 with
      | (x2, Some e) => (x2, Some e)
      | (x2, None) =>
          if missing defs kw then (x2, Some UpstageErr) else
          if amem LOG defs then (x2, Some UpstageErr) else
          if repeated (recording_names defs) then (x2, Some SimulationErr) else (x2, None)
      end
  end.
(** new_init and __actual_init__, actor.py:105-156, 208-218: "initial_knowledge" does not
    reach the states *)
Definition state_kwargs (kw : list (name * val)) : list (name * val) :=
  filter (fun e => negb (memn (fst e) [NAME; DEBUG_LOG; DEBUG_LOG_TIME; KNOWLEDGE])) kw.
Record world := mkWorld { w_heap : list obj; w_draws : nat; w_actors : list actor }.
Definition blank (k : nat) : actor := mkActor k [] [] [] [] [].
Variable classes : nat -> class.
Definition make (k : nat) (kw : list (name * val)) (w : world) : world * res nat :=
  match init_subclass (classes k) with
  | Err e => (w, Err e)
  | Ok defs =>
      match init_states (classes k) defs (state_kwargs kw) (mkSt (w_heap w) (w_draws w) (blank k)) with
      | (x, Some e) => (mkWorld (heap x) (draws x) (w_actors w), Err e)
      | (x, None) => (mkWorld (heap x) (draws x) (w_actors w ++ [me x]), Ok (length (w_actors w)))
      end
  end.

(** ** Cloning *)
(** copy.copy of a value; _make_clone of the three kinds, states.py:1072-1090, 1320,
    1404.  The constructor took the arguments before. *)
Definition copy_obj (v : val) (h : list obj) : list obj * val :=
  match v with
  | VObj o => match nth_error h o with Some b => (h ++ [b], VObj (length h)) | None => (h, v) end
  | _ => (h, v)
  end.
Definition clone_state (a : actor) (n : name) (s : nat) (h : list obj) : res (list obj * val) :=
  match aget n (a_dict a) with
  | None => Err SimulationErr
  | Some v =>
      match s_kind (def s) with
      | Resource | Comms _ =>
          match v with
          | VObj o =>
              match nth_error h o with
              | Some (ORes c _ z) =>
                  match aget n (a_memory a) with
                  | None => Err KeyErr
                  | Some kw => Ok (h ++ [ORes c kw z], VObj (length h))
                  end
              | _ => Err UpstageErr
              end
          | _ => Err UpstageErr
          end
      | _ => Ok (copy_obj v h)
      end
  end.
Fixpoint clone_states (a : actor) (defs : list (name * nat)) (h : list obj) : res (list obj * list (name * val)) :=
  match defs with
  | [] => Ok (h, [])
  | (n, s) :: defs' =>
      match clone_state a n s h with
      | Err e => Err e
      | Ok (h1, v) =>
          match clone_states a defs' h1 with
          | Err e => Err e
          | Ok (h2, r) => Ok (h2, (n, v) :: r)
          end
      end
  end.
(** The class attributes that are set on the clone, actor.py:1009-1019: those of the
    class itself that are no states, private or callable (a class is callable; objects
    are taken not to be).  A property refuses it unless it
    has a setter. *)
Fixpoint set_class_attrs (own : list (name * member)) (given : list (name * val)) (attrs : list (name * member)) : res (list (name * member)) :=
  match own with
  | [] => Ok attrs
  | (n, m) :: own' =>
      if amem n given then set_class_attrs own' given attrs else
      match m with
      | MPrivate | MFunction | MValue (VClass _) => set_class_attrs own' given attrs
      | MProperty false => Err AttributeErr
      | MProperty true => set_class_attrs own' given attrs
      | _ => set_class_attrs own' given (attrs ++ [(n, m)])
      end
  end.
(** Actor.clone, actor.py:957-1040 *)
Definition clone (i : nat) (new_states : list (name * val)) (w : world) : world * res nat :=
  match nth_error (w_actors w) i with
  | None => (w, Err KeyErr)
  | Some a =>
      match init_subclass (classes (a_class a)) with
      | Err e => (w, Err e)
      | Ok defs =>
          match clone_states a defs (w_heap w) with
          | Err e => (w, Err e)
          | Ok (h, states) =>
              let given := aupdate states new_states in
              match make (a_class a) given (mkWorld h (w_draws w) (w_actors w)) with
              | (w1, Err e) => (w1, Err e)
              | (w1, Ok j) =>
                  match set_class_attrs (hd [] (classes (a_class a))) given [] with
                  | Err e => (w1, Err e)
                  | Ok attrs =>
                      match nth_error (w_actors w1) j with
                      | Some b => (mkWorld (w_heap w1) (w_draws w1)
                                     (setn j (mkActor (a_class b) (a_dict b) (a_memory b) (a_modes b) (a_set b) attrs) (w_actors w1)), Ok j)
                      | None => (w1, Ok j)
                      end
                  end
              end
          end
      end
  end.
End Make.
