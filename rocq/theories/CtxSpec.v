(** Vocabulary for contexts, stage and entity groups. *)
From Coq Require Import String.
From Verif Require Import Common NetModel CtxModel.
Open Scope string_scope.
Open Scope list_scope.

(** ** Groups of a class *)
Section Classes.
Variable cs : list cdef.
(** The class declares the group or is named like it. *)
Definition declares (d : nat) (g : string) : bool :=
  match nth_error cs d with
  | None => false
  | Some c => c_add c && (smem g (c_declared c) || String.eqb g (c_name c) && negb (c_skip c))
  end.
(** An entity of class [c] is to be found in group [g]: its class takes part and
    some class of its hierarchy declares the group. *)
Definition in_group (c : nat) (g : string) : bool :=
  match nth_error cs c with
  | None => false
  | Some d => c_add d && existsb (fun b => declares b g) (c :: c_mro d)
  end.
(** What python guarantees of mro(): the classes in it are made before, and it
    contains theirs. *)
Definition mro_ok : Prop :=
  forall c d b, nth_error cs c = Some d -> In b (c_mro d) ->
    (b < c)%nat /\ forall d' b', nth_error cs b = Some d' -> In b' (c_mro d') -> In b' (c_mro d).
End Classes.

Section Spec.
Variable V : Type.

(** Observations. *)
Definition observes (o : op V) : bool :=
  match o with
  | OGet _ | OEnv | ONow | OActors | OMonitored | OGroup _ | OGroups | ORecorded => true
  | _ => false
  end.

(** Well nested use of contexts: [with ctx: ...], an object not being entered again
    while open. *)
Definition entered (os : list (op V)) : list nat :=
  flat_map (fun o => match o with OEnter c _ _ => [c] | _ => [] end) os.
Definition plain (o : op V) : bool := match o with OEnter _ _ _ | OExit _ => false | _ => true end.
Inductive nested : list (op V) -> Prop :=
| N_nil : nested []
| N_op o os : plain o = true -> nested os -> nested (o :: os)
| N_with c t rng body os :
    nested body -> ~ In c (entered body) -> nested os ->
    nested (OEnter c t rng :: body ++ OExit c :: os).
(** The operations outside inner contexts. *)
Fixpoint own (d : nat) (os : list (op V)) : list (op V) :=
  match os with
  | [] => []
  | OEnter _ _ _ :: os' => own (S d) os'
  | OExit _ :: os' => own (pred d) os'
  | o :: os' => match d with O => o :: own d os' | S _ => own d os' end
  end.
(** Stage variable [k] is not set or deleted behind the back of the stage. *)
Definition respects (k : string) (o : op V) : bool :=
  match o with OItem j _ | ODel j => negb (String.eqb j k) | _ => true end.
(** The value of the first addition of [k]. *)
Fixpoint first_added (k : string) (os : list (op V)) : option V :=
  match os with
  | [] => None
  | (OAdd j v | OAttr j v) :: os' => if String.eqb j k then Some v else first_added k os'
  | _ :: os' => first_added k os'
  end.

(** ** What was created, from the trace *)
Variable cs : list cdef.
Definition new_entity (t : op V * out V * st V) : option nat :=
  match fst (fst t) with
  | OCreate _ _ | OClone _ => match snd (fst t) with XAttrErr => None | _ => Some (pred (s_next (snd t))) end
  | _ => None
  end.
Definition class_of (s : st V) (e : nat) : nat := nth e (s_class s) (List.length cs).
Definition kind_of (s : st V) (e : nat) : ckind :=
  match nth_error cs (class_of s e) with Some c => c_kind c | None => KPlain end.
Definition is_actor (k : ckind) : bool := match k with KActor => true | _ => false end.
Definition is_monitored (k : ckind) : bool := match k with KMonitored => true | _ => false end.
Definition same (r : option nat) (i : nat) : bool := match r with Some j => Nat.eqb j i | None => false end.
(** The entities made while the groups at [r] were current, of the classes of [g]. *)
Definition members (r : nat) (g : string) (tr : list (op V * out V * st V)) : list nat :=
  flat_map (fun t => match new_entity t with
    | Some e => if same (v_entity (s_vars (snd t))) r && in_group cs (class_of (snd t) e) g && negb (smem g SKIP_GROUPS) then [e] else []
    | None => [] end) tr.
Definition specials (f : ckind -> bool) (r : nat) (tr : list (op V * out V * st V)) : list nat :=
  flat_map (fun t => match new_entity t with
    | Some e => if same (v_special (s_vars (snd t))) r && f (kind_of (snd t) e) then [e] else []
    | None => [] end) tr.
(** The data recorded while [r] was current, with the time. *)
Definition recorded (r : nat) (tr : list (op V * out V * st V)) : list (Q * V) :=
  flat_map (fun t => match fst (fst t), snd (fst t) with
    | ORecord v, XOk => if same (v_special (s_vars (snd t))) r
                        then match deref (v_env (s_vars (snd t))) (s_envs (snd t)) with Some now => [(now, v)] | None => [] end
                        else []
    | _, _ => [] end) tr.
End Spec.
