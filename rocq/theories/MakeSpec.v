(** Vocabulary for making and cloning actors. *)
From Coq Require Import ZArith List Bool Arith.
From Verif Require Import MakeModel.
Import ListNotations.

(** The states a class body declares, in order. *)
Definition own (d : list (name * member)) : list (name * nat) :=
  flat_map (fun e => match snd e with MState s => [(fst e, s)] | _ => [] end) d.
(** A name is declared as a state in two classes of the hierarchy. *)
Definition twice (c : class) : Prop :=
  exists i j di dj n s t, (i < j)%nat /\ nth_error c i = Some di /\ nth_error c j = Some dj /\ In (n, s) (own di) /\ In (n, t) (own dj).
(** Class bodies bind each name once. *)
Definition proper (c : class) : Prop := forall d, In d c -> NoDup (map fst d).
(** A class or a base of it declares [n] as the state [s]. *)
Definition declared (c : class) (n : name) (s : nat) : Prop := exists d, In d c /\ In (n, MState s) d.
(** No class binds the name of an inherited state to something else. *)
Definition unshadowed (c : class) : Prop := forall n s, declared c n s -> lookup n c = Some (MState s).
(** The names of the constructor's own parameters. *)
Definition parameter (n : name) : Prop := In n [NAME; DEBUG_LOG; DEBUG_LOG_TIME; KNOWLEDGE].
(** [kw] gives the state [n] the value [v]. *)
Definition gives (kw : list (name * val)) (n : name) (v : val) : Prop := In (n, v) kw /\ ~ parameter n.

Section MakeSpec.
Variable sub : nat -> nat -> bool.
Variable NONE TYPE STR LIST DICT : nat.
Variable resource_class : nat -> bool.
Variable accepts : nat -> list (name * val) -> bool.
Variable initial : nat -> list (name * val) -> Z.
Variable produce : nat -> nat -> option (nat * Z).
Variable def : nat -> sdef.

(** A value is of one of the types, if there are any. *)
Definition fits (h : list obj) (types : list nat) (v : val) : Prop :=
  types = [] \/ exists t, In t types /\ sub (type_of NONE TYPE STR LIST DICT h v) t = true.
(** A configuration [kv] for the state [d] says to build a [c] with arguments [kw]: kind
    and arguments are those given, otherwise the defaults; the class is allowed and takes
    the arguments. *)
Definition builds (d : sdef) (kv : list (name * val)) (c : nat) (kw : list (name * val)) : Prop :=
  match aget KIND kv with Some k => k = VClass c | None => s_default d = VClass c end /\
  (forall n, aget n kw = match (if Nat.eqb n KIND then None else aget n kv) with Some v => Some v | None => aget n (s_kwargs d) end) /\
  (s_types d = [] \/ exists t, In t (s_types d) /\ sub c t = true) /\ accepts c kw = true.
(** [v'] is what [v], given for a resource, becomes: itself, or a new resource. *)
Definition resource_of (d : sdef) (h : list obj) (v : val) (h' : list obj) (v' : val) : Prop :=
  match as_dict h v with
  | None => v' = v
  | Some kv => exists o c kw, v' = VObj o /\ (length h <= o)%nat /\ nth_error h' o = Some (ORes c kw (initial c kw)) /\ builds d kv c kw
  end.
(** The items given to a MultiStoreState. *)
Definition items (h : list obj) (v : val) (kv : list (name * option val)) : Prop :=
  match as_dict h v with
  | Some d => kv = map (fun e => (fst e, Some (snd e))) d
  | None => match v with VList l => kv = map (fun n => (n, None)) l | _ => False end
  end.
(** A state takes a value ... *)
Definition takes (d : sdef) (h : list obj) (v : val) : Prop :=
  match s_kind d with
  | Plain | Data => fits h (s_types d) v
  | Resource | Comms _ =>
      (match as_dict h v with
       | None => exists t, In t (s_types d) /\ sub (type_of NONE TYPE STR LIST DICT h v) t = true
       | Some kv => exists c kw, builds d kv c kw
       end) /\
      match s_kind d with Comms (VStr _) | Comms (VList _) => True | Comms _ => False | _ => True end
  | Dict => exists kv, as_dict h v = Some kv /\ forall k w, In (k, w) kv -> fits h (s_types d) w
  | Multi =>
      exists kv, items h v kv /\ forall k w, In (k, w) kv ->
        forallb resource_class (s_types d) = true /\
        match w with
        | None => exists c kw, builds d [] c kw
        | Some w => match as_dict h w with
                    | None => fits h (s_types d) w
                    | Some kv' => exists c kw, builds d kv' c kw
                    end
        end
  end.
(** ... and holds then. *)
Definition becomes (d : sdef) (h : list obj) (v : val) (h' : list obj) (v' : val) : Prop :=
  match s_kind d with
  | Plain | Data => v' = v
  | Resource | Comms _ => resource_of d h v h' v'
  | Dict => exists o kv, v' = VObj o /\ (length h <= o)%nat /\ as_dict h v = Some kv /\ nth_error h' o = Some (ODict kv)
  | Multi =>
      exists o kv l, v' = VObj o /\ (length h <= o)%nat /\ items h v kv /\ nth_error h' o = Some (ODict l) /\
        Forall2 (fun e e' => fst e = fst e' /\
                   match snd e with
                   | Some w => resource_of d h w h' (snd e')
                   | None => exists o c kw, snd e' = VObj o /\ (length h <= o)%nat /\
                                            nth_error h' o = Some (ORes c kw (initial c kw)) /\ builds d [] c kw
                   end) kv l
  end.
(** What a state is by default: a new resource, a new object of its factory, its default,
    or nothing. *)
Definition default_is (d : sdef) (h h' : list obj) (v' : option val) : Prop :=
  match s_kind d with
  | Resource | Comms _ =>
      exists o c kw, v' = Some (VObj o) /\ (length h <= o)%nat /\ nth_error h' o = Some (ORes c kw (initial c kw)) /\ builds d [] c kw
  | Plain =>
      match s_factory d with
      | Some f => exists k, match produce f k with
                            | Some (c, z) => exists o, v' = Some (VObj o) /\ (length h <= o)%nat /\ nth_error h' o = Some (OPlain c z)
                            | None => v' = Some VNone
                            end
      | None => match s_default d with
                | VNone => s_allow_none d = true /\ v' = None
                | v => v' = Some v
                end
      end
  | _ => False
  end.
(** A state has an acceptable default. *)
Definition has_a_default (d : sdef) (h : list obj) : Prop :=
  match s_kind d with
  | Resource | Comms _ => (exists c kw, builds d [] c kw) /\ match s_kind d with Comms (VStr _) | Comms (VList _) => True | Comms _ => False | _ => True end
  | Plain =>
      match s_factory d with
      | Some f => forall k, match produce f k with
                            | Some (c, z) => s_types d = [] \/ exists t, In t (s_types d) /\ sub c t = true
                            | None => fits h (s_types d) VNone
                            end
      | None => match s_default d with
                | VNone => s_allow_none d = true
                | v => fits h (s_types d) v
                end
      end
  | _ => False
  end.
(** What a state holds is as its definition says. *)
Definition held (d : sdef) (h : list obj) (v : val) : Prop :=
  match s_kind d with
  | Plain | Data => fits h (s_types d) v
  | Resource | Comms _ => exists t, In t (s_types d) /\ sub (type_of NONE TYPE STR LIST DICT h v) t = true
  | Dict => exists kv, as_dict h v = Some kv /\ forall k w, In (k, w) kv -> fits h (s_types d) w
  | Multi => exists kv, as_dict h v = Some kv /\ forall k w, In (k, w) kv ->
               forallb resource_class (s_types d) = true /\ as_dict h w = None /\ fits h (s_types d) w
  end.
Definition is_resource (d : sdef) : Prop := match s_kind d with Resource | Comms _ => True | _ => False end.
(** The modes of an actor's communication store are those of its definition. *)
Definition modes_are (d : sdef) (n : name) (a : actor) : Prop :=
  match s_kind d with Comms (VStr s) => aget n (a_modes a) = Some [s] | Comms (VList l) => aget n (a_modes a) = Some l | Comms _ => False | _ => True end.
(** The definitions the constructors of the states let pass (states.py:141-149, 980-990,
    1139-1149): default or factory, key/value states neither, resource states a class as
    default if any. *)
Definition well_defined (d : sdef) : Prop :=
  (s_default d = VNone \/ s_factory d = None) /\
  match s_kind d with
  | Plain => True
  | Resource | Comms _ =>
      s_factory d = None /\ s_allow_none d = false /\ s_frozen d = false /\ s_types d <> [] /\
      match s_default d with VNone | VClass _ => True | _ => False end
  | Dict | Data => s_factory d = None /\ s_allow_none d = false /\ s_default d = VNone
  | Multi => s_factory d = None /\ s_allow_none d = false
  end.
(** References lead to objects, dictionaries have every key once. *)
Definition valid (h : list obj) (v : val) : Prop := match v with VObj o => (o < length h)%nat | _ => True end.
Definition closed (h : list obj) : Prop :=
  forall o d, nth_error h o = Some (ODict d) -> NoDup (map fst d) /\ forall n v, In (n, v) d -> valid h v.
(** The configuration of a communication store says nothing of modes; a list of names has
    none twice. *)
Definition ordinary (d : sdef) (h : list obj) (v : val) : Prop :=
  (forall m kv, s_kind d = Comms m -> as_dict h v = Some kv -> aget MODES kv = None) /\
  (forall l, s_kind d = Multi -> v = VList l -> NoDup l).
(** A class as Python makes it, without shadowing, of well defined states. *)
Definition good_class (h : list obj) (c : class) : Prop :=
  proper c /\ unshadowed c /\ forall n s, declared c n s -> well_defined (def s) /\ valid h (s_default (def s)).
(** Keyword arguments, each once, leading to objects. *)
Definition good_args (h : list obj) (c : class) (kw : list (name * val)) : Prop :=
  NoDup (map fst kw) /\ forall n v, In (n, v) kw -> valid h v /\ forall s, declared c n s -> ordinary (def s) h v.
(** All names of states and of recordings, in order of declaration. *)
Definition all_names (c : class) : list name :=
  flat_map (fun e => fst e :: s_recs (def (snd e))) (concat (map own (rev c))).
(** Neither default nor factory nor leave to have none. *)
Definition lacks (d : sdef) : Prop := s_kind d = Multi \/ s_allow_none d = false /\ s_default d = VNone /\ s_factory d = None.
(** An actor whose states can be copied: every state has a value and may be given; a
    resource was built by its state. *)
Definition clonable (c : class) (h : list obj) (a : actor) : Prop :=
  forall n s, declared c n s -> s_no_init (def s) = false /\ ~ parameter n /\ n <> SELF /\ exists v, aget n (a_dict a) = Some v /\ valid h v /\ held (def s) h v /\
    (is_resource (def s) -> modes_are (def s) n a /\ exists o k kk z kw, v = VObj o /\ nth_error h o = Some (ORes k kk z) /\ aget n (a_memory a) = Some kw).
(** [v'] is a copy of [v], the value of [n] of the actor [a]. *)
Definition copied (d : sdef) (n : name) (a : actor) (h : list obj) (v : val) (h' : list obj) (v' : val) : Prop :=
  match v with
  | VObj o => exists o' b, v' = VObj o' /\ (length h <= o')%nat /\ nth_error h o = Some b /\
      match s_kind d with
      | Resource | Comms _ => exists c kk z kw, b = ORes c kk z /\ aget n (a_memory a) = Some kw /\ nth_error h' o' = Some (ORes c kw z)
      | _ => nth_error h' o' = Some b
      end
  | _ => v' = v
  end.
(** A class that lets itself be made and has no property without setter. *)
Definition sound_class (c : class) : Prop :=
  ~ twice c /\ (forall s, ~ declared c LOG s) /\ NoDup (all_names c) /\ forall n, ~ In (n, MProperty false) (hd [] c).
(** The values (other than classes) and class methods of the class itself. *)
Definition attributes (c : class) : list (name * member) :=
  filter (fun e => match snd e with MClassMethod => true | MValue (VClass _) => false | MValue _ => true | _ => false end) (hd [] c).
End MakeSpec.
