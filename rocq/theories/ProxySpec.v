(** Vocabulary for what the proxies show: a plain dictionary as its keys in order of
    insertion and a function from keys to values. *)
From Verif Require Import Common StateModel ProxyModel.

(** ** Plain dictionaries *)
Record pdict := mkP { p_order : list key; p_val : key -> option Z }.
Definition has (p : pdict) (k : key) : bool := existsb (Z.eqb k) (p_order p).
Definition pput (k : key) (v : Z) (p : pdict) : pdict :=
  mkP (if has p k then p_order p else p_order p ++ [k]) (fun j => if Z.eqb j k then Some v else p_val p j).
Definition pd (m : list (key * Z)) : pdict := mkP (map fst m) (fun k => kget k m).
Definition pd_same (p q : pdict) : Prop := p_order p = p_order q /\ forall k, p_val p k = p_val q k.
(** What a dictionary does and answers; [ok]: the declared types *)
Definition pd_step (ok : Z -> bool) (p : pdict) (o : op) : pdict * out :=
  match o with
  | PSet _ k v => (pput k v p, if ok v then Done else TypeErr)
  | PSetDefault _ k v => match p_val p k with Some x => (p, IsVal x) | None => (pput k v p, if ok v then IsVal v else TypeErr) end
  | PItem _ k => (p, match p_val p k with Some x => IsVal x | None => KeyErr end)
  | PIn _ k => (p, IsBool (has p k))
  | PLen _ => (p, IsNat (List.length (p_order p)))
  | PKeys _ => (p, IsKeys (p_order p))
  | PItems _ => (p, IsItems (flat_map (fun k => match p_val p k with Some v => [(k, v)] | None => [] end) (p_order p)))
  | _ => (p, Illegal)
  end.
Fixpoint pd_run (ok : Z -> bool) (p : pdict) (os : list op) : pdict * list out :=
  match os with
  | [] => (p, [])
  | o :: os' => let '(p1, r) := pd_step ok p o in let '(p2, rs) := pd_run ok p1 os' in (p2, r :: rs)
  end.

(** ** Which operations go through proxies of a state *)
Definition via (o : op) : option nat :=
  match o with
  | PSet i _ _ | PSetDefault i _ _ | PItem i _ | PIn i _ | PLen i | PKeys i | PItems i | PEq i _ | PRaw i | PAttr i _ | PSetAttr i _ _ => Some i
  | _ => None
  end.
Definition slot_of (w : world) (i : nat) : option nat := option_map fst (nth_error (w_prox w) i).
Definition is_eq (o : op) : bool := match o with PEq _ _ => true | _ => false end.
Definition illegal (r : out) : bool := match r with Illegal => true | _ => false end.
(** The operations on the state [s] in a run that ends in [w], without comparisons *)
Definition of_slot (w : world) (s : nat) (e : op * out) : bool :=
  negb (illegal (snd e)) && negb (is_eq (fst e)) &&
  match via (fst e) with Some i => match slot_of w i with Some s' => Nat.eqb s' s | None => false end | None => false end.
Definition ops_of (w : world) (s : nat) (tr : list (op * out)) : list (op * out) := filter (of_slot w s) tr.

(** The dictionary or dataclass object of a state *)
Definition object (w : world) (s : nat) : option obj :=
  match nget s (w_slot w) with Some l => nth_error (w_heap w) l | None => None end.
(** The user has no reference to the object of the state. *)
Definition kept_private (w : world) (s : nat) : Prop := forall l, nget s (w_slot w) = Some l -> ~ In l (w_held w).
(** [raw_object] was not called on a proxy of [s]. *)
Definition no_raw (w : world) (s : nat) (tr : list (op * out)) : Prop := forall i r, In (PRaw i, r) tr -> slot_of w i <> Some s.

(** The writes and ticks of a run as operations of the model of one state *)
Definition as_kv (w : world) (s : nat) (e : op * out) : list (kvop Z) :=
  match e with
  | (Tick t, Done) => [KTime t]
  | (PSet _ k v, _) => if of_slot w s e then [KSetItem k v] else []
  | (PSetDefault _ k v, _) => if of_slot w s e then [KSetDefault k v] else []
  | _ => []
  end.
(** Does [o] write through a proxy of [s]? *)
Definition writes_to (w : world) (s : nat) (o : op) : Prop :=
  match o with PSet i _ _ | PSetDefault i _ _ | PSetAttr i _ _ => slot_of w i = Some s | _ => False end.
(** Does [o] change an object in the user's hands, and which? *)
Definition user_writes (o : op) (l : nat) : Prop :=
  match o with USet l' _ _ | UDel l' _ | USetAttr l' _ _ => l' = l | _ => False end.

Section Reach.
Variable dec : nat -> decl.
Variable typ : nat -> Z -> bool.
Variable typc : nat -> option nat -> bool.
Variable ann : nat -> key -> option (Z -> bool).
Definition reach (w : world) : Prop := exists t os, w = fst (run dec typ typc ann (w_init t) os).
End Reach.
