(** Model of dictionary and dataclass states as seen through their proxies
    (state_proxies.py:16-144, states.py:1173-1405), with the identity of the objects:
    which dictionary or dataclass object is changed, and who else refers to it.

    A slot is one state of one actor.  Values are numbers.  Attributes of a dataclass
    object other than its fields, recording functions and iterating while the
    dictionary changes are left out. *)
From Verif Require Import Common StateModel.

(** A python object: a dictionary (in insertion order) or an object of a dataclass. *)
Inductive obj := ODict (m : list (key * Z)) | OData (c : nat) (m : list (key * Z)).

(** What the class body says of a slot: dictionary or dataclass state, recording. *)
Record decl := mkDecl { d_data : bool; d_rec : bool }.

Section Proxy.
Variable dec : nat -> decl.
Variable typ : nat -> Z -> bool.          (* _type_check of a value for a dictionary slot *)
Variable typc : nat -> option nat -> bool. (* _type_check of an object for a dataclass slot: its class; None: a dictionary *)
Variable ann : nat -> key -> option (Z -> bool).  (* the class's own __annotations__, with isinstance *)

Record world := mkW {
  w_now : Q;
  w_heap : list obj;
  w_slot : list (nat * nat);             (* instance.__dict__[name]: a reference *)
  w_prox : list (nat * nat);             (* the proxies made so far: slot and _wrapped *)
  w_held : list nat;                     (* references in the user's hands *)
  w_hist : list (nat * list (key * list (Q * Z))) }.
Definition w_init (t : Q) : world := mkW t [] [] [] [] [].

Inductive other := OtherProxy (j : nat) | OtherRef (l : nat).
Inductive op :=
| New (m : list (key * Z))               (* {k: v, ...} *)
| NewData (c : nat) (m : list (key * Z)) (* C(f=v, ...) *)
| Give (s l : nat)                       (* the state is set, on making the actor or later *)
| Look (s : nat)                         (* p = actor.x *)
| PSet (i : nat) (k : key) (v : Z)       (* p[k] = v *)
| PSetDefault (i : nat) (k : key) (v : Z)
| PItem (i : nat) (k : key)              (* p[k] *)
| PIn (i : nat) (k : key)                (* k in p *)
| PLen (i : nat)                         (* len(p) *)
| PKeys (i : nat)                        (* list(p), list(p.keys()) *)
| PItems (i : nat)                       (* list(p.items()) *)
| PEq (i : nat) (o : other)              (* p == o *)
| PRaw (i : nat)                         (* p.raw_object() *)
| PAttr (i : nat) (f : key)              (* p.f *)
| PSetAttr (i : nat) (f : key) (v : Z)   (* p.f = v *)
| USet (l : nat) (k : key) (v : Z)       (* d[k] = v, on an object in the user's hands *)
| UDel (l : nat) (k : key)               (* del d[k] *)
| USetAttr (l : nat) (f : key) (v : Z)   (* o.f = v *)
| Tick (t : Q).
Inductive out :=
| Done | IsRef (l : nat) | IsProxy (i : nat) | IsVal (v : Z) | IsBool (b : bool) | IsNat (n : nat)
| IsKeys (l : list key) | IsItems (l : list (key * Z))
| KeyErr | TypeErr | AttributeErr | SimulationErr
| Illegal.                               (* not something a program can do *)

Fixpoint nget {A} (n : nat) (l : list (nat * A)) : option A :=
  match l with [] => None | (m, x) :: l' => if Nat.eqb m n then Some x else nget n l' end.
Fixpoint nput {A} (n : nat) (x : A) (l : list (nat * A)) : list (nat * A) :=
  match l with [] => [(n, x)] | (m, y) :: l' => if Nat.eqb m n then (m, x) :: l' else (m, y) :: nput n x l' end.
Fixpoint upd (l : nat) (o : obj) (h : list obj) {struct h} : list obj :=
  match h with [] => [] | x :: h' => match l with 0%nat => o :: h' | S l' => x :: upd l' o h' end end.
(** {**l}: a later value for a key replaces an earlier one *)
Definition literal (l : list (key * Z)) : list (key * Z) := fold_left (fun m kv => kset (fst kv) (snd kv) m) l [].
(** del d[k] *)
Fixpoint kdel (k : key) (l : list (key * Z)) : list (key * Z) :=
  match l with [] => [] | (j, x) :: l' => if Z.eqb j k then l' else (j, x) :: kdel k l' end.
(** dict == dict: as many keys, and the same value for each *)
Definition dict_eq (a b : list (key * Z)) : bool :=
  Nat.eqb (List.length a) (List.length b) &&
  forallb (fun kv => match kget (fst kv) b with Some v => Z.eqb (snd kv) v | None => false end) a.
(** The [__eq__] of a dataclass: the same class, the fields in order *)
Fixpoint fields_eq (a b : list (key * Z)) : bool :=
  match a, b with
  | [], [] => true
  | (_, x) :: a', (_, y) :: b' => Z.eqb x y && fields_eq a' b'
  | _, _ => false
  end.

Definition with_heap (w : world) (h : list obj) : world := mkW (w_now w) h (w_slot w) (w_prox w) (w_held w) (w_hist w).
Definition with_hist (w : world) (s : nat) (h : list (key * list (Q * Z))) : world :=
  mkW (w_now w) (w_heap w) (w_slot w) (w_prox w) (w_held w) (nput s h (w_hist w)).
Definition hist (w : world) (s : nat) : list (key * list (Q * Z)) := match nget s (w_hist w) with Some h => h | None => [] end.
Definition hold (w : world) (l : nat) : world := mkW (w_now w) (w_heap w) (w_slot w) (w_prox w) (l :: w_held w) (w_hist w).
(** A new object *)
Definition alloc (w : world) (o : obj) : world := with_heap w (w_heap w ++ [o]).
Definition set_slot (w : world) (s l : nat) : world := mkW (w_now w) (w_heap w) (nput s l (w_slot w)) (w_prox w) (w_held w) (w_hist w).
(** [_record_state], states.py:1218-1236, for one key *)
Definition rec_one (s : nat) (k : key) (v : Z) (w : world) : world :=
  if d_rec (dec s) then with_hist w s (record_single Z Z.eqb (w_now w) k v (hist w s)) else w.
(** for all keys; [fields(dc)] raises TypeError if it is no dataclass (states.py:1394-1399) *)
Definition rec_all (s : nat) (m : list (key * Z)) (w : world) : world :=
  if d_rec (dec s) then with_hist w s (record_all Z Z.eqb (w_now w) m (hist w s)) else w.

(** DictionaryState.__set__, states.py:1303-1312; DataclassState.__set__, 1385-1392 *)
Definition give (s l : nat) (w : world) : world * out :=
  match nget s (w_slot w), nth_error (w_heap w) l with
  | Some _, _ => (w, SimulationErr)
  | None, None => (w, Illegal)
  | None, Some o =>
      if d_data (dec s) then
        if typc s (match o with OData c _ => Some c | ODict _ => None end) then
          let w1 := set_slot w s l in
          match o with
          | OData _ m => (rec_all s m w1, Done)
          | ODict _ => if d_rec (dec s) then (w1, TypeErr) else (w1, Done)
          end
        else (w, TypeErr)
      else
        let new := List.length (w_heap w) in
        match o with
        | ODict m =>
            let '(m', ok) := dict_fill Z (typ s) m [] in
            let w1 := set_slot (alloc w (ODict m')) s new in
            if ok then (rec_all s m' w1, Done) else (w1, TypeErr)
        | OData _ _ => (set_slot (alloc w (ODict [])) s new, AttributeErr)   (* no items() *)
        end
  end.

(** The proxy [i] and the object it wraps *)
Definition proxied (w : world) (i : nat) : option (nat * nat * obj) :=
  match nth_error (w_prox w) i with
  | Some (s, l) => match nth_error (w_heap w) l with Some o => Some (s, l, o) | None => None end
  | None => None
  end.
(** _DictionaryProxy.__setitem__, state_proxies.py:29-33 *)
Definition setitem (s l : nat) (m : list (key * Z)) (k : key) (v : Z) (w : world) : world * out :=
  let w1 := with_heap w (upd l (ODict (kset k v m)) (w_heap w)) in
  if typ s v then (rec_one s k v w1, Done) else (w1, TypeErr).
(** An operation on a dictionary proxy, state_proxies.py:29-90 *)
Definition on_dict (i s l : nat) (m : list (key * Z)) (o : op) (w : world) : world * out :=
  match o with
  | PSet _ k v => setitem s l m k v w
  | PSetDefault _ k v =>
      match kget k m with
      | Some x => (w, IsVal x)
      | None => let '(w1, r) := setitem s l m k v w in (w1, match r with Done => IsVal v | _ => r end)
      end
  | PItem _ k => (w, match kget k m with Some x => IsVal x | None => KeyErr end)
  | PIn _ k => (w, IsBool (match kget k m with Some _ => true | None => false end))
  | PLen _ => (w, IsNat (List.length m))
  | PKeys _ => (w, IsKeys (map fst m))
  | PItems _ => (w, IsItems m)
  | PEq _ (OtherProxy j) => match nth_error (w_prox w) j with Some _ => (w, IsBool false) | None => (w, Illegal) end
  | PEq _ (OtherRef l') =>
      if existsb (Nat.eqb l') (w_held w) then
        match nth_error (w_heap w) l' with
        | Some (ODict m') => (w, IsBool (dict_eq m' m))
        | Some (OData _ _) => (w, IsBool false)
        | None => (w, Illegal)
        end
      else (w, Illegal)
  | PRaw _ => (hold w l, IsRef l)
  | PAttr _ _ | PSetAttr _ _ _ => (w, Illegal)   (* attributes of the proxy itself *)
  | _ => (w, Illegal)
  end.
(** An operation on a dataclass proxy, state_proxies.py:96-144.  There is no
    [p[k]], length or iteration of it: python raises TypeError. *)
Definition on_data (i s l c : nat) (m : list (key * Z)) (o : op) (w : world) : world * out :=
  match o with
  | PAttr _ f => (w, match kget f m with Some x => IsVal x | None => AttributeErr end)
  | PSetAttr _ f v =>
      match kget f m with
      | None => (w, Done)                          (* hasattr is false: nothing is done, line 133 *)
      | Some _ =>
          match ann c f with
          | None => (w, KeyErr)                    (* line 110 *)
          | Some ok => if ok v then (rec_one s f v (with_heap w (upd l (OData c (kset f v m)) (w_heap w))), Done) else (w, TypeErr)
          end
      end
  | PEq _ (OtherRef l') =>
      if existsb (Nat.eqb l') (w_held w) then
        match nth_error (w_heap w) l' with
        | Some (OData c' m') => (w, IsBool (Nat.eqb c' c && fields_eq m' m))
        | Some (ODict _) => (w, IsBool false)
        | None => (w, Illegal)
        end
      else (w, Illegal)
  | PEq _ (OtherProxy j) =>                        (* other.__eq__(self._wrapped), lines 138-141 twice *)
      match proxied w j with
      | Some (_, _, OData c' m') => (w, IsBool (Nat.eqb c c' && fields_eq m m'))
      | Some (_, _, ODict _) => (w, IsBool false)
      | None => (w, Illegal)
      end
  | PRaw _ => (hold w l, IsRef l)
  | PSetDefault _ _ _ | PItems _ => (w, AttributeErr)
  | _ => (w, TypeErr)
  end.
Definition through (i : nat) (o : op) (w : world) : world * out :=
  match proxied w i with
  | Some (s, l, ODict m) => on_dict i s l m o w
  | Some (s, l, OData c m) => on_data i s l c m o w
  | None => (w, Illegal)
  end.
(** actor.x: DictionaryState.__get__, states.py:1298-1301; DataclassState.__get__,
    1382-1383, where the proxy wants a dataclass (state_proxies.py:100-101) *)
Definition look (s : nat) (w : world) : world * out :=
  match nget s (w_slot w) with
  | None => (w, KeyErr)
  | Some l =>
      match d_data (dec s), nth_error (w_heap w) l with
      | true, Some (ODict _) => (w, TypeErr)
      | _, _ => (mkW (w_now w) (w_heap w) (w_slot w) (w_prox w ++ [(s, l)]) (w_held w) (w_hist w), IsProxy (List.length (w_prox w)))
      end
  end.
(** What the user's program does with objects in its hands *)
Definition mine (l : nat) (w : world) : option obj := if existsb (Nat.eqb l) (w_held w) then nth_error (w_heap w) l else None.

Definition step (w : world) (o : op) : world * out :=
  match o with
  | New m => (hold (alloc w (ODict (literal m))) (List.length (w_heap w)), IsRef (List.length (w_heap w)))
  | NewData c m => (hold (alloc w (OData c (literal m))) (List.length (w_heap w)), IsRef (List.length (w_heap w)))
  | Give s l => match mine l w with Some _ => give s l w | None => (w, Illegal) end
  | Look s => look s w
  | PSet i _ _ | PSetDefault i _ _ | PItem i _ | PIn i _ | PLen i | PKeys i | PItems i | PEq i _ | PRaw i | PAttr i _ | PSetAttr i _ _ => through i o w
  | USet l k v => match mine l w with
                  | Some (ODict m) => (with_heap w (upd l (ODict (kset k v m)) (w_heap w)), Done)
                  | Some (OData _ _) => (w, TypeErr) | None => (w, Illegal) end
  | UDel l k => match mine l w with
                | Some (ODict m) => match kget k m with
                                    | Some _ => (with_heap w (upd l (ODict (kdel k m)) (w_heap w)), Done)
                                    | None => (w, KeyErr) end
                | Some (OData _ _) => (w, TypeErr) | None => (w, Illegal) end
  | USetAttr l f v => match mine l w with
                      | Some (OData c m) => match kget f m with
                                            | Some _ => (with_heap w (upd l (OData c (kset f v m)) (w_heap w)), Done)
                                            | None => (w, Illegal) end   (* a new attribute, no field *)
                      | Some (ODict _) => (w, AttributeErr) | None => (w, Illegal) end
  | Tick t => if Qleb (w_now w) t then (mkW t (w_heap w) (w_slot w) (w_prox w) (w_held w) (w_hist w), Done) else (w, Illegal)
  end.
Fixpoint run (w : world) (os : list op) : world * list (op * out) :=
  match os with
  | [] => (w, [])
  | o :: os' => let '(w1, r) := step w o in let '(w2, tr) := run w1 os' in (w2, (o, r) :: tr)
  end.
End Proxy.
