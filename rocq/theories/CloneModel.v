(** Model of cloning an actor and rehearsing on the clone: Actor.clone
    (actor.py:957-1040), MockEnvironment.mock (base.py:182-196), the queue
    functions as seen through aliasing (actor.py:727-814), and
    TaskNetwork.rehearse_network (task_network.py:140-198) with _next_task_name
    (71-92).

    Python objects live in a heap; a value is an atom (number, string) or a
    reference.  An object is a table of fields: a list, dictionary, dataclass,
    store with its items, ...  [copy.copy], [dict.copy], [dataclasses.replace] and
    ResourceState._make_clone (states.py:1072-1090, 1320, 1404) all make a new
    object with the same fields.  Reading a state while cloning also brings active
    states up to date; that is the subject of ActiveModel and left out here, as
    are the histories (deep copied) and the debug log (a new list). *)
From Verif Require Import Common StateModel KnowledgeModel ActiveModel NetModel.

Inductive cval := CAtom (z : Z) | CRef (l : nat).
Definition cobj := list (key * cval).

(** An actor: states, knowledge, the queue list each network name refers to, the
    clock of its env, the number of clones made. *)
Record cactor := mkCA {
  ac_st : list (key * cval); ac_kn : list (key * cval);
  ac_q : list (string * nat); ac_clock : Q; ac_clones : nat }.
(** [w_cur], [w_inst], [w_proc]: _current_task_name, _inst and _proc of the network. *)
Record cworld := mkCW {
  w_heap : list cobj; w_lists : list (list string);
  w_real : cactor; w_und : cactor;
  w_cur : option string; w_inst : option nat; w_proc : option nat }.

(** copy.copy *)
Definition copy1 (h : list cobj) (v : cval) : list cobj * cval :=
  match v with
  | CAtom _ => (h, v)
  | CRef l => match nth_error h l with Some o => (h ++ [o], CRef (List.length h)) | None => (h, v) end
  end.
Fixpoint copy_all (h : list cobj) (d : list (key * cval)) (acc : list (key * cval)) : list cobj * list (key * cval) :=
  match d with
  | [] => (h, acc)
  | (k, v) :: d' => let '(h1, v1) := copy1 h v in copy_all h1 d' (kset k v1 acc)
  end.
(** actor.py:983-1040; [extra] is the knowledge given to the rehearsal *)
Definition clone (extra : list (key * cval)) (w : cworld) : cworld :=
  let a := w_real w in
  let '(h1, st) := copy_all (w_heap w) (ac_st a) [] in
  let '(h2, kn0) := copy_all h1 (ac_kn a) [] in
  let '(h3, kn) := copy_all h2 extra kn0 in
  mkCW h3 (w_lists w)
       (mkCA (ac_st a) (ac_kn a) (ac_q a) (ac_clock a) (S (ac_clones a)))
       (mkCA st kn (ac_q a) (ac_clock a) 0)
       (w_cur w) (w_inst w) (w_proc w).

(** What user code can do to the understudy during a rehearsal. *)
Inductive cpath := PState (k : key) | PKnow (k : key) | PField (p : cpath) (f : key).
Inductive cexp := EAtom (z : Z) | EPath (p : cpath) | ENew.   (* ENew: a new empty object *)
Inductive cop :=
| CSet (k : key) (e : cexp)              (* understudy.k = e *)
| CKnow (k : key) (e : cexp)             (* set_knowledge(k, e, overwrite=True) *)
| CForget (k : key)                      (* clear_knowledge(k) *)
| CField (p : cpath) (f : key) (e : cexp) (* p.f = e, p[f] = e, p.append(e) ... *)
| CDrop (p : cpath) (f : key)            (* del p[f], p.pop() ... *)
| CQClear (n : string)
| CQSet (n : string) (l : list string)
| CQPop (n : string)                     (* _clear_task; get_task_queue(n).pop(0) *)
| CQAdd (n : string) (t : string)        (* get_task_queue(n).append(t) *)
| CAdvance (t : Q).                      (* an event is rehearsed *)

Fixpoint look (h : list cobj) (a : cactor) (p : cpath) : option cval :=
  match p with
  | PState k => kget k (ac_st a)
  | PKnow k => kget k (ac_kn a)
  | PField p' f => match look h a p' with
                   | Some (CRef l) => match nth_error h l with Some o => kget f o | None => None end
                   | _ => None
                   end
  end.
Definition eval (h : list cobj) (a : cactor) (e : cexp) : option (list cobj * cval) :=
  match e with
  | EAtom z => Some (h, CAtom z)
  | EPath p => match look h a p with Some v => Some (h, v) | None => None end
  | ENew => Some (h ++ [[]], CRef (List.length h))
  end.

Definition with_und (w : cworld) (h : list cobj) (u : cactor) : cworld :=
  mkCW h (w_lists w) (w_real w) u (w_cur w) (w_inst w) (w_proc w).
Definition with_lists (w : cworld) (ls : list (list string)) (q : list (string * nat)) : cworld :=
  mkCW (w_heap w) ls (w_real w)
       (mkCA (ac_st (w_und w)) (ac_kn (w_und w)) q (ac_clock (w_und w)) (ac_clones (w_und w)))
       (w_cur w) (w_inst w) (w_proc w).
Definition queue_at (w : cworld) (a : cactor) (n : string) : option (nat * list string) :=
  match sget n (ac_q a) with Some l => Some (l, nth l (w_lists w) []) | None => None end.

(** [false]: the statement raises. *)
Definition cstep (w : cworld) (o : cop) : cworld * bool :=
  let h := w_heap w in
  let u := w_und w in
  match o with
  | CSet k e => match eval h u e with
                | Some (h1, v) => (with_und w h1 (mkCA (kset k v (ac_st u)) (ac_kn u) (ac_q u) (ac_clock u) (ac_clones u)), true)
                | None => (w, false)
                end
  | CKnow k e => match eval h u e with
                 | Some (h1, v) => (with_und w h1 (mkCA (ac_st u) (kset k v (ac_kn u)) (ac_q u) (ac_clock u) (ac_clones u)), true)
                 | None => (w, false)
                 end
  | CForget k => if kmem k (ac_kn u)
                 then (with_und w h (mkCA (ac_st u) (kdel k (ac_kn u)) (ac_q u) (ac_clock u) (ac_clones u)), true)
                 else (w, false)
  | CField p f e =>
      match eval h u e with
      | Some (h1, v) =>
          match look h1 u p with
          | Some (CRef l) => match nth_error h1 l with
                             | Some ob => (with_und w (upd l (kset f v ob) h1) u, true)
                             | None => (w, false)
                             end
          | _ => (w, false)
          end
      | None => (w, false)
      end
  | CDrop p f =>
      match look h u p with
      | Some (CRef l) => match nth_error h l with
                         | Some ob => (with_und w (upd l (kdel f ob) h) u, true)
                         | None => (w, false)
                         end
      | _ => (w, false)
      end
  | CQClear n =>                                     (* actor.py:727-736: a new list *)
      (with_lists w (w_lists w ++ [[]]) (sset n (List.length (w_lists w)) (ac_q u)), true)
  | CQSet n l =>                                     (* actor.py:738-751: a new list *)
      match queue_at w u n with
      | Some (_, []) => (with_lists w (w_lists w ++ [l]) (sset n (List.length (w_lists w)) (ac_q u)), true)
      | _ => (w, false)
      end
  | CQPop n =>                                       (* actor.py:790-795: in place *)
      match queue_at w u n with
      | Some (i, _ :: q) => (with_lists w (upd i q (w_lists w)) (ac_q u), true)
      | _ => (w, false)
      end
  | CQAdd n t =>                                     (* actor.py:753-762: the list itself *)
      match queue_at w u n with
      | Some (i, q) => (with_lists w (upd i (q ++ [t]) (w_lists w)) (ac_q u), true)
      | None => (w, false)
      end
  | CAdvance t => (with_und w h (mkCA (ac_st u) (ac_kn u) (ac_q u) (ac_clock u + t) (ac_clones u)), true)
  end.
Fixpoint crun (w : cworld) (os : list cop) : cworld :=
  match os with [] => w | o :: os' => crun (fst (cstep w o)) os' end.

(** ** Rehearsing a network (task_network.py:140-198) *)
Inductive nres := NDone | NRaised | NMore.
Definition with_cur (w : cworld) (c : option string) (i : option nat) : cworld :=
  mkCW (w_heap w) (w_lists w) (w_real w) (w_und w) c i (w_proc w).
(** task_network.py:71-92 with clear_queue=True *)
Definition next_clearing (d : netdef) (n t : string) (w : cworld) : option (cworld * string) :=
  match queue_at w (w_und w) n, sget t (n_links d) with
  | Some (i, q), Some lk =>
      match q with
      | [] => match l_default lk with Some t' => Some (w, t') | None => None end
      | t' :: q' => Some (fst (cstep w (CQPop n)), t')
      end
  | _, _ => None
  end.
Section NetRehearsal.
Variable d : netdef.
Variable n : string.
(** What rehearsing a task of that name does, and whether it returns. *)
Variable plan : string -> cworld -> list cop * bool.
Variable names : list string.
Variable endt : option string.
(** One turn of the loop, [last] being the task before: stop, raise, or go on. *)
Definition nturn (idx : nat) (last : option string) (w : cworld) : cworld * nres * option string :=
  let go w t :=
    if match endt with Some e => String.eqb e t | None => false end then (w, NDone, Some t)
    else
      match sget t (n_classes d) with
      | None => (with_cur w (Some t) (w_inst w), NRaised, None)     (* KeyError *)
      | Some _ =>
          let w1 := with_cur w (Some t) (Some idx) in
          let '(os, ok) := plan t w1 in
          let w2 := crun w1 os in
          if ok then
            match nth_error names (S idx) with
            | Some f => match is_feasible d t f with Some true => (w2, NMore, Some t) | _ => (w2, NRaised, None) end
            | None => (w2, NMore, Some t)
            end
          else (w2, NRaised, None)
      end in
  match nth_error names idx with
  | Some t => go w t
  | None => match endt with
            | None => (w, NDone, last)
            | Some _ => match last with
                        | None => (w, NRaised, None)                (* UnboundLocalError *)
                        | Some t0 => match next_clearing d n t0 w with
                                     | Some (w1, t) => go w1 t
                                     | None => (w, NRaised, None)
                                     end
                        end
            end
  end.
Fixpoint nloop (fuel : nat) (idx : nat) (last : option string) (w : cworld) : cworld * nres :=
  match fuel with
  | O => (w, NMore)
  | S f => let '(w1, r, t) := nturn idx last w in
           match r with NMore => nloop f (S idx) t w1 | _ => (w1, r) end
  end.
Definition rehearse_network (fuel : nat) (extra : list (key * cval)) (w : cworld) : cworld * nres :=
  let '(w1, r) := nloop fuel 0 None (clone extra w) in
  match r with
  | NDone => (mkCW (w_heap w1) (w_lists w1) (w_real w1) (w_und w1) (w_cur w) (w_inst w) (w_proc w), r)
  | _ => (w1, r)
  end.
End NetRehearsal.
