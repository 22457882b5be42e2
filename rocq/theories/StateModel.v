(** Model of [State] (states.py:78-340), [DictionaryState]/[DataclassState]
    (states.py:1173-1405) and their proxies (state_proxies.py).

    Values are immutable here, so the deepcopy of states.py:201 is the identity. *)
From Verif Require Import Common.

Section State.
Variable V : Type.
Variable veq : V -> V -> bool.        (* [a == b], False if that raises (states.py:60-75) *)
Variable is_none : V -> bool.         (* [value is None] *)
Variable typ : V -> bool.             (* [isinstance(value, self._types)], true without types *)
Variable RS : Type.                   (* internal state of a recording callable *)
Variable rfun : RS -> Q -> V -> RS * V.   (* a recording function or callable class *)

(** Comparison of two history entries, tuples (states.py:204-206). *)
Definition entry_eq (a b : Q * V) : bool := Qeqb (fst a) (fst b) && veq (snd a) (snd b).

(** Append unless it repeats the last entry (states.py:178-183,202-207,1207-1210);
    histories are kept newest first. *)
Definition append_entry (dups : bool) (e : Q * V) (h : list (Q * V)) : list (Q * V) :=
  match h with
  | [] => [e]
  | x :: _ => if dups || negb (entry_eq e x) then e :: h else h
  end.

(** The declaration (states.py:139-172). *)
Record sdef := mkDef { d_frozen : bool; d_recording : bool; d_dups : bool }.

(** An actor as far as one state is concerned. *)
Record sst := mkS {
  s_now : Q;
  s_val : option V;                    (* instance.__dict__.get(name) *)
  s_hist : list (Q * V);               (* instance._state_histories[name] *)
  s_funs : list (RS * list (Q * V));   (* recording functions and their histories *)
  s_called : list V;                   (* calls of each change callback, newest first *)
  s_sent : list V }.                   (* send_change calls to the nucleus, newest first *)

Definition sinit (t0 : Q) (rs : list RS) : sst := mkS t0 None [] (map (fun r => (r, [])) rs) [] [].

(** states.py:174-183 for one function. *)
Definition record_fun (dups : bool) (now : Q) (v : V) (f : RS * list (Q * V)) : RS * list (Q * V) :=
  let '(r', x) := rfun (fst f) now v in (r', append_entry dups (now, x) (snd f)).

(** states.py:185-209 *)
Definition do_record (d : sdef) (v : V) (s : sst) : sst :=
  if d_recording d then
    mkS (s_now s) (s_val s) (append_entry (d_dups d) (s_now s, v) (s_hist s))
        (map (record_fun (d_dups d) (s_now s) v) (s_funs s)) (s_called s) (s_sent s)
  else s.

Inductive sout := ROk | RFrozen | RType | RUnset | RIllegal.

(** states.py:245-267.  The frozen test looks at [old_value is not None]. *)
Definition do_set (d : sdef) (v : V) (s : sst) : sst * sout :=
  let blocked := match s_val s with Some w => negb (is_none w) | None => false end in
  if d_frozen d && blocked then (s, RFrozen)
  else if negb (typ v) then (s, RType)
  else
    let s1 := do_record d v (mkS (s_now s) (Some v) (s_hist s) (s_funs s) (s_called s) (s_sent s)) in
    (mkS (s_now s1) (s_val s1) (s_hist s1) (s_funs s1) (v :: s_called s1) (v :: s_sent s1), ROk).

Inductive sop :=
| SAssign (v : V)            (* actor.x = v *)
| SRecord                    (* actor.record_state("x"), actor.py:1233-1245 *)
| STime (t : Q).             (* the clock moves *)

Definition sstep (d : sdef) (s : sst) (o : sop) : sst * sout :=
  match o with
  | SAssign v => do_set d v s
  | SRecord => match s_val s with
               | Some v => (do_record d v s, ROk)
               | None => (s, RUnset)
               end
  | STime t => if Qleb (s_now s) t
               then (mkS t (s_val s) (s_hist s) (s_funs s) (s_called s) (s_sent s), ROk)
               else (s, RIllegal)
  end.

Fixpoint srun (d : sdef) (s : sst) (os : list sop) : sst * list (sop * sout) :=
  match os with
  | [] => (s, [])
  | o :: os' => let '(s1, r) := sstep d s o in
                let '(s2, tr) := srun d s1 os' in (s2, (o, r) :: tr)
  end.

(** ** Dictionary and dataclass states *)
Definition key := Z.

Fixpoint kget {X} (k : key) (l : list (key * X)) : option X :=
  match l with
  | [] => None
  | (j, x) :: l' => if Z.eqb j k then Some x else kget k l'
  end.
(** Python dict assignment: keep the position of an existing key. *)
Fixpoint kset {X} (k : key) (x : X) (l : list (key * X)) : list (key * X) :=
  match l with
  | [] => [(k, x)]
  | (j, y) :: l' => if Z.eqb j k then (j, x) :: l' else (j, y) :: kset k x l'
  end.

Record kvst := mkKV {
  kv_now : Q;
  kv_dict : option (list (key * V));       (* the wrapped object; None: state not yet set *)
  kv_hist : list (key * list (Q * V)) }.   (* histories "<state>.<key>", newest first *)

Definition kvinit (t0 : Q) : kvst := mkKV t0 None [].

(** states.py:1204-1210.  The test reads [self._record_duplicates], which
    1194-1200 always sets to False; the user's choice is stored in
    [_record_indiv_dupe] and never read. *)
Definition record_single (now : Q) (k : key) (v : V) (h : list (key * list (Q * V))) : list (key * list (Q * V)) :=
  match kget k h with
  | None => kset k [(now, v)] h
  | Some l => kset k (append_entry false (now, v) l) h
  end.

(** What a declaration fixes: recording, the ignored record_duplicates, and for
    a dataclass each field with whether the wrapped class annotates it itself
    (python looks in the class's own [__annotations__], state_proxies.py:110)
    and the check against its type. *)
Record kvdef := mkKD {
  kd_recording : bool; kd_dups : bool;
  kd_fields : list (key * (bool * (V -> bool))) }.

Inductive kvout := KOk | KType | KKey | KAlready | KIgnored 
| KGot (v : V)        (* setdefault found v *)
| KStored (v : V)     (* setdefault stored and returned v *)
| KUnset | KIllegal.

(** The loop of states.py:1308-1310: check and store one pair after the other. *)
Fixpoint dict_fill (l : list (key * V)) (acc : list (key * V)) : list (key * V) * bool :=
  match l with
  | [] => (acc, true)
  | (k, v) :: l' => if typ v then dict_fill l' (kset k v acc) else (acc, false)
  end.

Fixpoint record_all (now : Q) (l : list (key * V)) (h : list (key * list (Q * V))) : list (key * list (Q * V)) :=
  match l with
  | [] => h
  | (k, v) :: l' => record_all now l' (record_single now k v h)
  end.

Inductive kvop :=
| KInit (l : list (key * V))          (* DictionaryState.__set__, states.py:1303-1312 *)
| KInitDc (l : list (key * V))        (* DataclassState.__set__, states.py:1385-1392: fields in order; an object of the declared class *)
| KSetItem (k : key) (v : V)          (* proxy[k] = v, state_proxies.py:29-33 *)
| KSetDefault (k : key) (v : V)       (* proxy.setdefault, state_proxies.py:35-39 *)
| KSetAttr (k : key) (v : V)          (* dataclass proxy.k = v, state_proxies.py:129-136 *)
| KTime (t : Q).

(** [_record_state] for one key (states.py:1218-1236), recording functions left out. *)
Definition record_key (d : kvdef) (k : key) (v : V) (s : kvst) : kvst :=
  if kd_recording d then mkKV (kv_now s) (kv_dict s) (record_single (kv_now s) k v (kv_hist s)) else s.

(** state_proxies.py:29-33: the value is written before it is checked. *)
Definition set_item (d : kvdef) (k : key) (v : V) (m : list (key * V)) (s : kvst) : kvst * kvout :=
  let s1 := mkKV (kv_now s) (Some (kset k v m)) (kv_hist s) in
  if typ v then (record_key d k v s1, KOk) else (s1, KType).

Definition kvstep (d : kvdef) (s : kvst) (o : kvop) : kvst * kvout :=
  match o with
  | KTime t => if Qleb (kv_now s) t then (mkKV t (kv_dict s) (kv_hist s), KOk) else (s, KIllegal)
  | KInit l =>
      match kv_dict s with
      | Some _ => (s, KAlready)
      | None =>
          let '(m, ok) := dict_fill l [] in
          let s1 := mkKV (kv_now s) (Some m) (kv_hist s) in
          if ok then (mkKV (kv_now s) (Some m) (if kd_recording d then record_all (kv_now s) m (kv_hist s) else kv_hist s), KOk)
          else (s1, KType)
      end
  | KInitDc l =>
      match kv_dict s with
      | Some _ => (s, KAlready)
      | None => (mkKV (kv_now s) (Some l) (if kd_recording d then record_all (kv_now s) l (kv_hist s) else kv_hist s), KOk)
      end
  | KSetItem k v =>
      match kv_dict s with
      | None => (s, KUnset)
      | Some m => set_item d k v m s
      end
  | KSetDefault k v =>
      match kv_dict s with
      | None => (s, KUnset)
      | Some m => match kget k m with
                  | Some w => (s, KGot w)
                  | None => let '(s1, r) := set_item d k v m s in
                            (s1, match r with KOk => KStored v | _ => r end)
                  end
      end
  | KSetAttr k v =>
      match kv_dict s with
      | None => (s, KUnset)
      | Some m =>
          match kget k m with                      (* hasattr *)
          | None => (s, KIgnored)
          | Some _ =>
              match kget k (kd_fields d) with
              | Some (true, ok) => if ok v then (record_key d k v (mkKV (kv_now s) (Some (kset k v m)) (kv_hist s)), KOk)
                                   else (s, KType)
              | _ => (s, KKey)                     (* not in the class's own __annotations__ *)
              end
          end
      end
  end.

Fixpoint kvrun (d : kvdef) (s : kvst) (os : list kvop) : kvst * list (kvop * kvout) :=
  match os with
  | [] => (s, [])
  | o :: os' => let '(s1, r) := kvstep d s o in
                let '(s2, tr) := kvrun d s1 os' in (s2, (o, r) :: tr)
  end.
End State.

Arguments mkS {V RS}. Arguments s_now {V RS}. Arguments s_val {V RS}. Arguments s_hist {V RS}.
Arguments s_funs {V RS}. Arguments s_called {V RS}. Arguments s_sent {V RS}.
Arguments SAssign {V}. Arguments SRecord {V}. Arguments STime {V}.
Arguments sinit {V RS}.
Arguments mkKV {V}. Arguments kv_now {V}. Arguments kv_dict {V}. Arguments kv_hist {V}. Arguments kvinit {V}.
Arguments mkKD {V}. Arguments kd_recording {V}. Arguments kd_dups {V}. Arguments kd_fields {V}.
Arguments KInit {V}. Arguments KInitDc {V}. Arguments KSetItem {V}. Arguments KSetDefault {V}.
Arguments KSetAttr {V}. Arguments KTime {V}.
Arguments KOk {V}. Arguments KType {V}. Arguments KKey {V}. Arguments KAlready {V}. Arguments KIgnored {V}.
Arguments KGot {V}. Arguments KStored {V}. Arguments KUnset {V}. Arguments KIllegal {V}.
