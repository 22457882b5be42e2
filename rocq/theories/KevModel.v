(** Model of knowledge events while actors are cloned and rehearsed: create_knowledge_event and succeed_knowledge_event
    (actor.py:1152-1202), get, set and clear_knowledge (562-662), the part of Actor.clone that copies the knowledge
    (1026-1031), Event (events.py:778-872) and simpy's events.

    [copy(event)] is a new Event with the same fields, hence with the same simpy event.  An Event is known by the actor
    for which it was made (created or copied) and a number; a simpy event by the Event that made it and a number.  The
    actors below [k_real] are those of the simulation, the others are clones.  Payloads and other values are opaque. *)
From Verif Require Import Common StateModel KnowledgeModel.

Definition oid : Type := nat * nat.
Definition sid : Type := oid * nat.
Definition oid_eqb (a b : oid) : bool := Nat.eqb (fst a) (fst b) && Nat.eqb (snd a) (snd b).
Definition sid_eqb (a b : sid) : bool := oid_eqb (fst a) (fst b) && Nat.eqb (snd a) (snd b).
Inductive kv := VEvent (o : oid) | VOther (z : Z).
(** _event, _payload, _auto_reset; how many simpy events it has made *)
Record ev := mkE { e_sim : sid; e_payload : option Z; e_auto : bool; e_made : nat }.
Inductive stat := Pending | Triggered | Processed.
(** A process that waits, with the Event it has yielded *)
Record sim := mkS { s_stat : stat; s_wait : list (nat * oid) }.
(** _knowledge, _is_rehearsing, Events made *)
Record act := mkA { a_know : list (key * kv); a_reh : bool; a_made : nat }.
Record kw := mkK {
  k_real : nat; k_acts : list act; k_objs : oid -> option ev; k_sims : sid -> option sim;
  k_agenda : list sid;                (* triggered *)
  k_ready : list (nat * oid);         (* to be resumed by the event being processed *)
  k_next : nat }.                     (* yields so far *)

Inductive doing := DYield | DSucceed (p : option Z) | DReset | DCancel | DComplete | DPayload.
Inductive kop :=
| KGet (a : nat) (n : key) | KSet (a : nat) (n : key) (v : kv) (ow : bool) | KClear (a : nat) (n : key)
| KCreate (a : nat) (n : key) (auto : bool)                (* create_knowledge_event; auto is always True there *)
| KSucceed (a : nat) (n : key) (p : option Z)
| KOn (a : nat) (o : oid) (d : doing)                      (* code of the actor a uses an Event it holds *)
| KClone (a : nat) (extra : list (key * kv))
| KTick | KWake.
Inductive kout :=
| OOk | OVal (v : option kv) | OObj (o : oid) | OFired (s : sid) | OWaits (w : nat) | OPlan | OBool (b : bool) | OPay (p : option Z)
| OActor (c : nat) | OProc (s : sid) | OWoke (w : nat) (p : option Z) | OSim | OUp | ORun | OBad.

Definition set_acts (w : kw) (l : list act) : kw := mkK (k_real w) l (k_objs w) (k_sims w) (k_agenda w) (k_ready w) (k_next w).
Fixpoint put {X} (i : nat) (x : X) (l : list X) : list X :=
  match l, i with [], _ => [] | _ :: l', O => x :: l' | y :: l', S j => y :: put j x l' end.
Definition set_know_of (w : kw) (a : nat) (x : act) (d : list (key * kv)) : kw := set_acts w (put a (mkA d (a_reh x) (a_made x)) (k_acts w)).
Definition set_obj (w : kw) (o : oid) (e : ev) : kw :=
  mkK (k_real w) (k_acts w) (fun o' => if oid_eqb o' o then Some e else k_objs w o') (k_sims w) (k_agenda w) (k_ready w) (k_next w).
Definition set_sim (w : kw) (s : sid) (x : sim) : kw :=
  mkK (k_real w) (k_acts w) (k_objs w) (fun s' => if sid_eqb s' s then Some x else k_sims w s') (k_agenda w) (k_ready w) (k_next w).

(** SIM.Event(self.env); self.env of an Event is always the simulation's.  events.py:795-796, 848-851 *)
Definition make_sim (w : kw) (o : oid) (n : nat) : kw := set_sim w (o, n) (mkS Pending []).
Definition is_complete (w : kw) (e : ev) : bool := match k_sims w (e_sim e) with Some (mkS Processed _) => true | _ => false end.
Definition reset (w : kw) (o : oid) (e : ev) : kw :=
  set_obj (make_sim w o (e_made e)) o (mkE (o, e_made e) (e_payload e) (e_auto e) (S (e_made e))).
(** simpy's succeed *)
Definition trigger (w : kw) (s : sid) : kw * kout :=
  match k_sims w s with
  | Some (mkS Pending ws) =>
      let w1 := set_sim w s (mkS Triggered ws) in
      (mkK (k_real w1) (k_acts w1) (k_objs w1) (k_sims w1) (k_agenda w1 ++ [s]) (k_ready w1) (k_next w1), OFired s)
  | _ => (w, ORun)
  end.
(** Event.succeed, events.py:821-830 *)
Definition succeed (w : kw) (o : oid) (e : ev) (p : option Z) : kw * kout :=
  if is_complete w e then (w, OSim)
  else trigger (set_obj w o (mkE (e_sim e) p (e_auto e) (e_made e))) (e_sim e).
(** A process yields the Event: as_event, events.py:806-819 *)
Definition wait_on (w : kw) (o : oid) (e : ev) : kw * kout :=
  let go w e :=
    match k_sims w (e_sim e) with
    | Some (mkS k ws) =>
        let w1 := set_sim w (e_sim e) (mkS k (ws ++ [(k_next w, o)])) in
        (mkK (k_real w1) (k_acts w1) (k_objs w1) (k_sims w1) (k_agenda w1) (k_ready w1) (S (k_next w1)), OWaits (k_next w))
    | None => (w, OBad)
    end in
  if is_complete w e
  then if e_auto e then go (reset w o e) (mkE (o, e_made e) (e_payload e) (e_auto e) (S (e_made e))) else (w, OUp)
  else go w e.

(** copy(data), actor.py:1028, 1031: for the clone [c] that has [n] Events so far; the copy of an Event that does not exist does not exist *)
Definition copy_value (w : kw) (c n : nat) (v : kv) : kw * nat * kv :=
  match v with
  | VOther z => (w, n, v)
  | VEvent o => match k_objs w o with
                | Some e => (set_obj w (c, n) (mkE (e_sim e) (e_payload e) (e_auto e) 0), S n, VEvent (c, n))
                | None => (w, S n, VEvent (c, n))
                end
  end.
Fixpoint copy_all (w : kw) (c n : nat) (l : list (key * kv)) (d : list (key * kv)) : kw * nat * list (key * kv) :=
  match l with
  | [] => (w, n, d)
  | (k, v) :: l' => let '(w1, n1, v1) := copy_value w c n v in copy_all w1 c n1 l' (kset k v1 d)
  end.

Definition kstep (w : kw) (op : kop) : kw * kout :=
  match op with
  | KGet a n => match nth_error (k_acts w) a with Some x => (w, OVal (kget n (a_know x))) | None => (w, OBad) end
  | KSet a n v ow =>
      match nth_error (k_acts w) a with
      | Some x => if kmem n (a_know x) && negb ow then (w, OSim) else (set_know_of w a x (kset n v (a_know x)), OOk)
      | None => (w, OBad)
      end
  | KClear a n =>
      match nth_error (k_acts w) a with
      | Some x => if kmem n (a_know x) then (set_know_of w a x (kdel n (a_know x)), OOk) else (w, OSim)
      | None => (w, OBad)
      end
  | KCreate a n auto =>                                     (* actor.py:1181-1185 *)
      match nth_error (k_acts w) a with
      | Some x =>
          let o := (a, a_made x) in
          let w1 := set_obj (make_sim w o 0) o (mkE (o, 0%nat) None auto 1) in
          if kmem n (a_know x) && negb (a_reh x) then (set_acts w1 (put a (mkA (a_know x) (a_reh x) (S (a_made x))) (k_acts w1)), OSim)
          else (set_acts w1 (put a (mkA (kset n (VEvent o) (a_know x)) (a_reh x) (S (a_made x))) (k_acts w1)), OObj o)
      | None => (w, OBad)
      end
  | KSucceed a n p =>                                       (* actor.py:1196-1202 *)
      match nth_error (k_acts w) a with
      | Some x => match kget n (a_know x) with
                  | Some (VEvent o) =>
                      let w1 := set_know_of w a x (kdel n (a_know x)) in
                      match k_objs w o with Some e => succeed w1 o e p | None => (w1, OBad) end
                  | _ => (w, OSim)
                  end
      | None => (w, OBad)
      end
  | KOn a o d =>
      match nth_error (k_acts w) a, k_objs w o with
      | Some x, Some e =>
          match d with
          | DYield => if a_reh x then (w, OPlan) else wait_on w o e    (* events.py:865-872 *)
          | DSucceed p => succeed w o e p
          | DReset => (reset w o e, OOk)
          | DCancel => trigger w (e_sim e)                  (* 853-863 *)
          | DComplete => (w, OBool (is_complete w e))
          | DPayload => (w, OPay (e_payload e))
          end
      | _, _ => (w, OBad)
      end
  | KClone a extra =>
      match nth_error (k_acts w) a with
      | Some x =>
          let c := List.length (k_acts w) in
          let '(w1, n1, d1) := copy_all w c 0 (a_know x) [] in
          let '(w2, n2, d2) := copy_all w1 c n1 extra d1 in
          (set_acts w2 (k_acts w2 ++ [mkA d2 true n2]), OActor c)
      | None => (w, OBad)
      end
  | KTick =>
      match k_ready w, k_agenda w with
      | [], s :: ag =>
          match k_sims w s with
          | Some x => let w1 := set_sim w s (mkS Processed []) in
                      (mkK (k_real w1) (k_acts w1) (k_objs w1) (k_sims w1) ag (s_wait x) (k_next w1), OProc s)
          | None => (w, OBad)
          end
      | _, _ => (w, OBad)
      end
  | KWake =>
      match k_ready w with
      | (p, o) :: l => (mkK (k_real w) (k_acts w) (k_objs w) (k_sims w) (k_agenda w) l (k_next w),
                        OWoke p (match k_objs w o with Some e => e_payload e | None => None end))
      | [] => (w, OBad)
      end
  end.
Fixpoint krun (w : kw) (os : list kop) : kw * list (kop * kout) :=
  match os with
  | [] => (w, [])
  | o :: os' => let '(w1, r) := kstep w o in let '(w2, l) := krun w1 os' in (w2, (o, r) :: l)
  end.
(** [m] actors that know nothing *)
Definition kinit (m : nat) : kw := mkK m (repeat (mkA [] false 0) m) (fun _ => None) (fun _ => None) [] [] 0.
