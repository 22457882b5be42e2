(** Model of the contexts of base.py: EnvironmentContext, the stage, the actors and
    entity groups, and of data_utils/data_recorder.py.

    The four context variables refer to objects on heaps, so what an outer context
    holds is still there while an inner one is current.  Code reaches those objects
    through the context variables only (a stage object kept by the user across
    contexts is not modelled), in one thread.

    Sets are lists in the order [order] gives them (python's set order is
    arbitrary). *)
From Coq Require Import String.
From Verif Require Import Common NetModel.
Open Scope string_scope.
Open Scope list_scope.

(** ** Entity classes (base.py:429-452) *)
Inductive ckind := KActor | KMonitored | KPlain.
Record cdef := mkC {
  c_name : string;                (* cls.__name__ *)
  c_declared : list string;       (* entity_groups=, a string being a list of one *)
  c_add : bool;                   (* add_to_entity_groups *)
  c_skip : bool;                  (* skip_classname *)
  c_mro : list nat;               (* the classes after itself in mro(), by number *)
  c_kind : ckind }.               (* whose _add_special_group it has *)

(** set.add *)
Definition add1 (g : string) (l : list string) : list string := if smem g l then l else l ++ [g].
Definition union (l l' : list string) : list string := fold_left (fun a g => add1 g a) l' l.
(** [t] : the _entity_groups of the classes made before.  A class that is not an
    entity has none (getattr's default). *)
Definition groups_def (t : list (list string)) (c : cdef) : list string :=
  if c_add c then
    let own := union [] (c_declared c) in
    let own := if smem (c_name c) own then own else if c_skip c then own else own ++ [c_name c] in
    fold_left (fun a b => union a (nth b t [])) (c_mro c) own
  else [].
Definition groups_table (cs : list cdef) : list (list string) :=
  fold_left (fun t c => t ++ [groups_def t c]) cs [].
(** base.py:222 *)
Definition SKIP_GROUPS : list string := ["Actor"; "Task"; "Location"; "CartesianLocation"; "GeodeticLocation"].

(** Attributes a dict has: getattr finds them before __getattr__ is asked. *)
Definition dict_attrs : list string :=
  [ "__class__"; "__class_getitem__"; "__contains__"; "__delattr__"; "__delitem__"; "__dict__"; "__dir__"; "__doc__"; "__eq__";
    "__format__"; "__ge__"; "__getattr__"; "__getattribute__"; "__getitem__"; "__getstate__"; "__gt__"; "__hash__"; "__init__";
    "__init_subclass__"; "__ior__"; "__iter__"; "__le__"; "__len__"; "__lt__"; "__module__"; "__ne__"; "__new__"; "__or__";
    "__reduce__"; "__reduce_ex__"; "__repr__"; "__reversed__"; "__ror__"; "__setattr__"; "__setitem__"; "__sizeof__"; "__str__";
    "__subclasshook__"; "__weakref__"; "clear"; "copy"; "fromkeys"; "get"; "items"; "keys"; "pop"; "popitem"; "setdefault";
    "update"; "values" ].

Section Ctx.
Variable V : Type.                             (* values of stage variables, data recorded *)
Variable cs : list cdef.                       (* the entity classes *)
Variable order : list string -> list string.   (* in which order a set is run through *)
Variable eqv : nat -> nat -> bool.             (* == between different entities *)

(** SpecialContexts, base.py:207-213 *)
Record special := mkSp { p_actors : list nat; p_monitored : list nat; p_recorded : list (Q * V) }.
(** What the four context variables refer to. *)
Record vars := mkV { v_env : option nat; v_special : option nat; v_entity : option nat; v_stage : option nat }.
Record st := mkS {
  s_vars : vars;
  s_envs : list Q;                             (* the environments made, by now *)
  s_specials : list special;
  s_entities : list (list (string * list nat));
  s_stages : list (list (string * V));
  s_tokens : list (nat * (vars * bool));       (* EnvironmentContext objects: old values, token used *)
  s_next : nat;                                (* entities made *)
  s_class : list nat }.                        (* their classes *)
Definition init : st := mkS (mkV None None None None) [] [] [] [] [] 0 [].

Inductive op :=
| OEnter (c : nat) (t0 : Q) (rng : V)          (* __enter__ of EnvironmentContext object c *)
| OExit (c : nat)                              (* __exit__ *)
| OAdd (k : string) (v : V)                    (* add_stage_variable *)
| OGet (k : string)                            (* get_stage_variable *)
| OAttr (k : string) (v : V)                   (* stage.k = v *)
| OItem (k : string) (v : V)                   (* stage[k] = v *)
| ODel (k : string)                            (* del stage.k *)
| OCreate (cls : nat) (ok : bool)              (* cls(...); ok: the rest of __init__ does not raise *)
| OClone (e : nat)                             (* actor.clone() *)
| OTime (t : Q)                                (* env.run(until=t) *)
| ORecord (v : V)                              (* record_data *)
| OEnv | ONow | OActors | OMonitored | OGroup (g : string) | OGroups | ORecorded.
Inductive out :=
| XOk
| XVal (v : V) | XMethod                       (* a value, a method of dict *)
| XMade (e : nat)                              (* the new entity *)
| XEnv (e : nat) | XTime (t : Q) | XEnts (l : list nat) | XGroups (l : list (string * list nat)) | XData (l : list (Q * V))
| XValueErr | XUpstageErr | XAttrErr | XKeyErr | XRuntimeErr | XLookupErr
| XInitErr (e : nat).                          (* the constructor of e raised afterwards *)

Fixpoint set_nth {X} (i : nat) (x : X) (l : list X) : list X :=
  match l, i with
  | [], _ => []
  | _ :: l', O => x :: l'
  | y :: l', S i' => y :: set_nth i' x l'
  end.
Fixpoint nget {X} (n : nat) (d : list (nat * X)) : option X :=
  match d with [] => None | (m, x) :: d' => if Nat.eqb m n then Some x else nget n d' end.
Fixpoint nset {X} (n : nat) (x : X) (d : list (nat * X)) : list (nat * X) :=
  match d with [] => [(n, x)] | (m, y) :: d' => if Nat.eqb m n then (m, x) :: d' else (m, y) :: nset n x d' end.
Definition deref {X} (r : option nat) (h : list X) : option X :=
  match r with None => None | Some i => nth_error h i end.

Definition with_vars (s : st) (v : vars) : st :=
  mkS v (s_envs s) (s_specials s) (s_entities s) (s_stages s) (s_tokens s) (s_next s) (s_class s).
Definition with_stage (s : st) (r : nat) (d : list (string * V)) : st :=
  mkS (s_vars s) (s_envs s) (s_specials s) (s_entities s) (set_nth r d (s_stages s)) (s_tokens s) (s_next s) (s_class s).
Definition with_special (s : st) (r : nat) (p : special) : st :=
  mkS (s_vars s) (s_envs s) (set_nth r p (s_specials s)) (s_entities s) (s_stages s) (s_tokens s) (s_next s) (s_class s).
Definition with_entities (s : st) (r : nat) (d : list (string * list nat)) : st :=
  mkS (s_vars s) (s_envs s) (s_specials s) (set_nth r d (s_entities s)) (s_stages s) (s_tokens s) (s_next s) (s_class s).

(** EnvironmentContext.__enter__, base.py:549-566 *)
Definition enter (s : st) (c : nat) (t0 : Q) (rng : V) : st :=
  mkS (mkV (Some (List.length (s_envs s))) (Some (List.length (s_specials s)))
           (Some (List.length (s_entities s))) (Some (List.length (s_stages s))))
      (s_envs s ++ [t0]) (s_specials s ++ [mkSp [] [] []]) (s_entities s ++ [[]])
      (s_stages s ++ [[("random", rng)]])
      (nset c (s_vars s, false) (s_tokens s)) (s_next s) (s_class s).
(** __exit__, base.py:568-574: AttributeError without a token, RuntimeError if it was used *)
Definition leave (s : st) (c : nat) : st * out :=
  match nget c (s_tokens s) with
  | None => (s, XAttrErr)
  | Some (_, true) => (s, XRuntimeErr)
  | Some (v, false) =>
      (mkS v (s_envs s) (s_specials s) (s_entities s) (s_stages s) (nset c (v, true) (s_tokens s)) (s_next s) (s_class s), XOk)
  end.

(** _add_to_group, base.py:387-401; false: UpstageError *)
Definition add_to_group (s : st) (e : nat) (g : string) : st * bool :=
  match v_entity (s_vars s) with
  | Some r =>
      let d := nth r (s_entities s) [] in
      let l := match sget g d with Some l => l | None => [] end in
      let d1 := match sget g d with Some _ => d | None => sset g [] d end in
      if existsb (fun x => Nat.eqb x e || eqv x e) l then (with_entities s r d1, false)
      else (with_entities s r (sset g (l ++ [e]) d1), true)
  | None =>
      let v := s_vars s in
      (mkS (mkV (v_env v) (v_special v) (Some (List.length (s_entities s))) (v_stage v))
           (s_envs s) (s_specials s) (s_entities s ++ [[(g, [e])]]) (s_stages s) (s_tokens s) (s_next s) (s_class s), true)
  end.
(** _add_entity, base.py:412-422 *)
Fixpoint add_groups (s : st) (e : nat) (gs : list string) : st * bool :=
  match gs with
  | [] => (s, true)
  | g :: gs' => if smem g SKIP_GROUPS then add_groups s e gs'
                else let '(s1, ok) := add_to_group s e g in
                     if ok then add_groups s1 e gs' else (s1, false)
  end.
(** _add_special_group: actor.py:257-265, monitoring.py:40-48; false: LookupError *)
Definition add_special (s : st) (e : nat) (k : ckind) : st * bool :=
  match k with
  | KPlain => (s, true)
  | _ =>
      match v_special (s_vars s) with
      | None => (s, false)
      | Some r =>
          match nth_error (s_specials s) r with
          | None => (s, true)
          | Some p =>
              let l := match k with KActor => p_actors p | _ => p_monitored p end in
              if existsb (fun x => Nat.eqb x e || eqv x e) l then (s, true)
              else match k with
                   | KActor => (with_special s r (mkSp (p_actors p ++ [e]) (p_monitored p) (p_recorded p)), true)
                   | _ => (with_special s r (mkSp (p_actors p) (p_monitored p ++ [e]) (p_recorded p)), true)
                   end
          end
      end
  end.
(** NamedUpstageEntity.__init__, base.py:424-427, called at the beginning of
    Actor.__init__ (actor.py:125-126) *)
Definition create (s : st) (cls : nat) (ok : bool) : st * out :=
  match nth_error cs cls with
  | None => (s, XAttrErr)
  | Some c =>
      let e := s_next s in
      let s0 := mkS (s_vars s) (s_envs s) (s_specials s) (s_entities s) (s_stages s) (s_tokens s) (S (s_next s)) (s_class s ++ [cls]) in
      let '(s1, ok1) := add_groups s0 e (order (nth cls (groups_table cs) [])) in
      if ok1 then
        let '(s2, ok2) := add_special s1 e (c_kind c) in
        if ok2 then (s2, if ok then XMade e else XInitErr e) else (s2, XLookupErr)
      else (s1, XUpstageErr)
  end.

Definition step (s : st) (o : op) : st * out :=
  match o with
  | OEnter c t0 rng => (enter s c t0 rng, XEnv (List.length (s_envs s)))
  | OExit c => leave s c
  | OAdd k v =>                                 (* base.py:577-592 *)
      match v_stage (s_vars s) with
      | None => (s, XValueErr)
      | Some r => let d := nth r (s_stages s) [] in
                  match sget k d with
                  | Some _ => (s, XUpstageErr)
                  | None => (with_stage s r (sset k v d), XOk)
                  end
      end
  | OGet k =>                                   (* base.py:595-610 *)
      match v_stage (s_vars s) with
      | None => (s, XValueErr)
      | Some r => match sget k (nth r (s_stages s) []) with
                  | None => (s, XUpstageErr)
                  | Some v => (s, if smem k dict_attrs then XMethod else XVal v)
                  end
      end
  | OAttr k v =>                                (* base.py:56-67 *)
      match v_stage (s_vars s) with
      | None => (s, XUpstageErr)
      | Some r => let d := nth r (s_stages s) [] in
                  match sget k d with
                  | Some _ => (s, XAttrErr)
                  | None => (with_stage s r (sset k v d), XOk)
                  end
      end
  | OItem k v =>
      match v_stage (s_vars s) with
      | None => (s, XUpstageErr)
      | Some r => (with_stage s r (sset k v (nth r (s_stages s) [])), XOk)
      end
  | ODel k =>                                   (* base.py:69-75 *)
      match v_stage (s_vars s) with
      | None => (s, XUpstageErr)
      | Some r => let d := nth r (s_stages s) [] in
                  match sget k d with
                  | None => (s, XKeyErr)
                  | Some _ => (with_stage s r (sdel k d), XOk)
                  end
      end
  | OCreate cls ok => create s cls ok
  | OClone e =>                                 (* actor.py:1001-1006 *)
      match nth_error (s_class s) e with
      | None => (s, XAttrErr)
      | Some cls => create s cls true
      end
  | OTime t =>
      match v_env (s_vars s) with
      | None => (s, XUpstageErr)
      | Some r => if Qltb (nth r (s_envs s) 0) t
                  then (mkS (s_vars s) (set_nth r t (s_envs s)) (s_specials s) (s_entities s) (s_stages s) (s_tokens s) (s_next s) (s_class s), XOk)
                  else (s, XValueErr)
      end
  | ORecord v =>                                (* data_recorder.py:13-34 *)
      match v_special (s_vars s) with
      | None => (s, XLookupErr)
      | Some r =>
          match nth_error (s_specials s) r, deref (v_env (s_vars s)) (s_envs s) with
          | Some p, Some now => (with_special s r (mkSp (p_actors p) (p_monitored p) (p_recorded p ++ [(now, v)])), XOk)
          | _, _ => (s, XUpstageErr)
          end
      end
  | OEnv => (s, match v_env (s_vars s) with Some e => XEnv e | None => XUpstageErr end)   (* base.py:243-254 *)
  | ONow => (s, match deref (v_env (s_vars s)) (s_envs s) with Some t => XTime t | None => XUpstageErr end)
  | OActors => (s, match deref (v_special (s_vars s)) (s_specials s) with Some p => XEnts (p_actors p) | None => XUpstageErr end)
  | OMonitored => (s, match deref (v_special (s_vars s)) (s_specials s) with Some p => XEnts (p_monitored p) | None => XUpstageErr end)
  | OGroup g =>                                 (* base.py:282-297 *)
      (s, match deref (v_entity (s_vars s)) (s_entities s) with
          | Some d => XEnts (match sget g d with Some l => l | None => [] end)
          | None => XUpstageErr end)
  | OGroups => (s, match deref (v_entity (s_vars s)) (s_entities s) with Some d => XGroups d | None => XUpstageErr end)
  | ORecorded => (s, match deref (v_special (s_vars s)) (s_specials s) with Some p => XData (p_recorded p) | None => XUpstageErr end)
  end.

Fixpoint run (s : st) (os : list op) : st :=
  match os with [] => s | o :: os' => run (fst (step s o)) os' end.
(** The run with what was current after each operation. *)
Fixpoint trace (s : st) (os : list op) : list (op * out * st) :=
  match os with
  | [] => []
  | o :: os' => let '(s1, a) := step s o in (o, a, s1) :: trace s1 os'
  end.
End Ctx.

Arguments mkSp {V}. Arguments p_actors {V}. Arguments p_monitored {V}. Arguments p_recorded {V}.
Arguments mkS {V}. Arguments s_vars {V}. Arguments s_envs {V}. Arguments s_specials {V}. Arguments s_entities {V}.
Arguments s_stages {V}. Arguments s_tokens {V}. Arguments s_next {V}. Arguments s_class {V}.
Arguments OEnter {V}. Arguments OExit {V}. Arguments OAdd {V}. Arguments OGet {V}. Arguments OAttr {V}. Arguments OItem {V}.
Arguments ODel {V}. Arguments OCreate {V}. Arguments OClone {V}. Arguments OTime {V}. Arguments ORecord {V}.
Arguments OEnv {V}. Arguments ONow {V}. Arguments OActors {V}. Arguments OMonitored {V}. Arguments OGroup {V}. Arguments OGroups {V}. Arguments ORecorded {V}.
Arguments XOk {V}. Arguments XVal {V}. Arguments XMethod {V}. Arguments XMade {V}. Arguments XEnv {V}. Arguments XTime {V}. Arguments XEnts {V}.
Arguments XGroups {V}. Arguments XData {V}. Arguments XValueErr {V}. Arguments XUpstageErr {V}. Arguments XAttrErr {V}.
Arguments XKeyErr {V}. Arguments XRuntimeErr {V}. Arguments XLookupErr {V}. Arguments XInitErr {V}.
Arguments deref {X}. Arguments nget {X}. Arguments nset {X}. Arguments set_nth {X}.
