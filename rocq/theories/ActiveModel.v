(** Model of an actor's active states: activation, deactivation, locking
    (actor.py:267-452) with LinearChangingState (states.py:384-506) and
    SharedLinearChangingState (state_sharing.py:13-128).

    Tasks are numbers; states are positions in the list of declared states.
    Recording and change callbacks are in [StateModel]. *)
From Verif Require Import Common.

(** The kinds of declared state: [Plain] is any State that is not an
    ActiveState; only [Shared] has IGNORE_LOCK. *)
Inductive skind := Plain | Linear | Shared.

(** The dictionary [_active_states[name]] (actor.py:306-312): the keys
    started_at, rate, task, _rate_tasks, _last_time; the last two survive an
    update that does not give them, because of the underscore. *)
Record adata := mkD {
  d_started : Q; d_rate : option Q; d_task : option nat;
  d_rates : option (list (nat * Q)); d_last : option Q }.

Record sslot := mkSlot {
  v_kind : skind;
  v_val : Q;                        (* instance.__dict__[name] *)
  v_data : option adata;            (* _active_states.get(name) *)
  v_tasks : list nat }.             (* _tasks_by_state[name] *)

Record actor := mkA {
  a_now : Q;
  a_slots : list sslot;
  a_by_task : list (nat * nat) }.   (* _states_by_task as (task, state) pairs *)

Inductive aerr := ESim | EUpstage | EKey | EAssert.
Inductive aout := AOk | AVal (v : Q) | AErr (e : aerr) | AIllegal.

Fixpoint upd {X} (i : nat) (x : X) (l : list X) : list X :=
  match l, i with
  | [], _ => []
  | _ :: l', O => x :: l'
  | y :: l', S j => y :: upd j x l'
  end.
Definition nmem (n : nat) (l : list nat) : bool := existsb (Nat.eqb n) l.
Definition nrem (n : nat) (l : list nat) : list nat := filter (fun x => negb (Nat.eqb x n)) l.
Definition pair_eqb (a b : nat * nat) : bool := Nat.eqb (fst a) (fst b) && Nat.eqb (snd a) (snd b).
Definition prem (p : nat * nat) (l : list (nat * nat)) : list (nat * nat) := filter (fun x => negb (pair_eqb x p)) l.
Definition rget (t : nat) (l : list (nat * Q)) : bool := existsb (fun p => Nat.eqb (fst p) t) l.
Definition rdel (t : nat) (l : list (nat * Q)) : list (nat * Q) := filter (fun p => negb (Nat.eqb (fst p) t)) l.
Definition rsum (l : list (nat * Q)) : Q := Qsum (map snd l).

(** actor.py:293-312 *)
Definition set_data (old : option adata) (started : Q) (rate : option Q) (task : option nat)
    (rates : option (list (nat * Q))) (last : option Q) : adata :=
  mkD started rate task
    (match rates with Some _ => rates | None => match old with Some d => d_rates d | None => None end end)
    (match last with Some _ => last | None => match old with Some d => d_last d | None => None end end).

(** states.py:480-506 *)
Definition linear_active (now : Q) (x : sslot) : sslot * (Q + aerr) :=
  match v_data x with
  | None => (x, inl (v_val x))
  | Some d =>
      match d_rate d with
      | None => (x, inr EKey)
      | Some r =>
          if Qltb now (d_started d) then (x, inr ESim)
          else let v := v_val x + (now - d_started d) * r in
               (mkSlot (v_kind x) v (Some (set_data (Some d) now (Some r) None None None)) (v_tasks x), inl v)
      end
  end.

(** state_sharing.py:53-99 *)
Definition shared_active (now : Q) (x : sslot) : sslot * (Q + aerr) :=
  match v_data x with
  | None => (x, inl (v_val x))
  | Some d =>
      let rates := match d_rates d with Some l => l | None => [] end in
      let last := match d_last d with Some t => t | None => now end in
      let v := v_val x + (now - last) * rsum rates in
      let fin rates' :=
        (mkSlot (v_kind x) v (Some (set_data (Some d) now None None (Some rates') (Some now))) (v_tasks x), inl v) in
      match d_task d with
      | None => fin rates
      | Some t => match d_rate d with
                  | None => (x, inr EKey)
                  | Some r => if rget t rates then (x, inr EUpstage) else fin (rates ++ [(t, r)])
                  end
      end
  end.

(** Attribute access (states.py:269-280,410-424). *)
Definition read_slot (now : Q) (x : sslot) : sslot * (Q + aerr) :=
  match v_kind x with
  | Plain => (x, inl (v_val x))
  | Linear => linear_active now x
  | Shared => shared_active now x
  end.

Definition set_slot (a : actor) (i : nat) (x : sslot) : actor := mkA (a_now a) (upd i x (a_slots a)) (a_by_task a).

(** state_sharing.py:101-128; the result says whether the state stays active. *)
Definition shared_deactivate (now : Q) (x : sslot) (t : nat) : sslot * (bool + aerr) :=
  let rates := match v_data x with Some d => match d_rates d with Some l => l | None => [] end | None => [] end in
  if rget t rates then
    let rates' := rdel t rates in
    let x1 := mkSlot (v_kind x) (v_val x) (Some (set_data (v_data x) now None None (Some rates') None)) (v_tasks x) in
    let '(x2, r) := shared_active now x1 in
    (x2, match r with inl _ => inl (match rates' with [] => false | _ => true end) | inr e => inr e end)
  else (x, inr EUpstage).

(** actor.py:267-291; [None]: SimulationError *)
Definition lock (a : actor) (i : nat) (x : sslot) (t : nat) : option actor :=
  let blocked := match v_kind x with Shared => nmem t (v_tasks x)
                                   | _ => match v_tasks x with [] => false | _ => true end end in
  if blocked then None
  else Some (mkA (a_now a) (upd i (mkSlot (v_kind x) (v_val x) (v_data x) (v_tasks x ++ [t])) (a_slots a))
                 (a_by_task a ++ [(t, i)])).

(** actor.py:314-342 *)
Definition activate (a : actor) (i t : nat) (rate : option Q) : actor * aout :=
  match nth_error (a_slots a) i with
  | None => (a, AErr ESim)
  | Some x =>
      match lock a i x t with
      | None => (a, AErr ESim)
      | Some a1 =>
          let x1 := mkSlot (v_kind x) (v_val x)
                      (Some (set_data (v_data x) (a_now a) rate (Some t) None None)) (v_tasks x ++ [t]) in
          let '(x2, r) := read_slot (a_now a) x1 in
          (set_slot a1 i x2,
           match r with
           | inr e => AErr e
           | inl _ => match v_kind x with Plain => AErr EAssert | _ => AOk end
           end)
      end
  end.

(** actor.py:372-393 *)
Definition unlock (a : actor) (i : nat) (x : sslot) (t : nat) : actor * sslot :=
  let x1 := mkSlot (v_kind x) (v_val x) (v_data x) (nrem t (v_tasks x)) in
  (mkA (a_now a) (upd i x1 (a_slots a)) (prem (t, i) (a_by_task a)), x1).

(** actor.py:408-425 *)
Definition deactivate (a : actor) (i t : nat) : actor * aout :=
  match nth_error (a_slots a) i with
  | None => (a, AErr EKey)
  | Some x =>
      if nmem t (v_tasks x) then
        let '(a1, x1) := unlock a i x t in
        let '(x2, r) := read_slot (a_now a) x1 in
        match r with
        | inr e => (set_slot a1 i x2, AErr e)
        | inl _ =>
            match v_kind x with
            | Plain => (set_slot a1 i x2, AErr EUpstage)
            | Linear => (set_slot a1 i (mkSlot (v_kind x2) (v_val x2) None (v_tasks x2)), AOk)
            | Shared =>
                let '(x3, r3) := shared_deactivate (a_now a) x2 t in
                match r3 with
                | inl true => (set_slot a1 i x3, AOk)
                | inl false => (set_slot a1 i (mkSlot (v_kind x3) (v_val x3) None (v_tasks x3)), AOk)
                | inr e => (set_slot a1 i x3, AErr e)
                end
            end
        end
      else (a, AErr (match v_kind x with Shared => EUpstage | _ => ESim end))
  end.

(** actor.py:395-406: stops at the first exception. *)
Fixpoint deactivate_list (a : actor) (l : list nat) (t : nat) : actor * aout :=
  match l with
  | [] => (a, AOk)
  | i :: l' => let '(a1, r) := deactivate a i t in
               match r with AOk => deactivate_list a1 l' t | _ => (a1, r) end
  end.

(** actor.py:427-434; a set is iterated, here in insertion order. *)
Definition states_of (a : actor) (t : nat) : list nat :=
  map snd (filter (fun p => Nat.eqb (fst p) t) (a_by_task a)).

Inductive aop :=
| AActivate (i t : nat) (rate : option Q)
| ADeactivate (i t : nat)
| ADeactivateStates (l : list nat) (t : nat)
| ADeactivateAll (t : nat)
| ARead (i : nat)                     (* actor.x, or get_active_state_data *)
| AAssign (i : nat) (v : Q)           (* actor.x = v *)
| ATime (t : Q).

Definition astep (a : actor) (o : aop) : actor * aout :=
  match o with
  | AActivate i t r => activate a i t r
  | ADeactivate i t => deactivate a i t
  | ADeactivateStates l t => deactivate_list a l t
  | ADeactivateAll t => deactivate_list a (states_of a t) t
  | ARead i =>
      match nth_error (a_slots a) i with
      | None => (a, AErr EKey)
      | Some x => let '(x1, r) := read_slot (a_now a) x in
                  (set_slot a i x1, match r with inl v => AVal v | inr e => AErr e end)
      end
  | AAssign i v =>
      match nth_error (a_slots a) i with
      | None => (a, AErr EKey)
      | Some x => (set_slot a i (mkSlot (v_kind x) v (v_data x) (v_tasks x)), AOk)
      end
  | ATime t => if Qleb (a_now a) t then (mkA t (a_slots a) (a_by_task a), AOk) else (a, AIllegal)
  end.

Fixpoint arun (a : actor) (os : list aop) : actor * list (aop * aout) :=
  match os with
  | [] => (a, [])
  | o :: os' => let '(a1, r) := astep a o in
                let '(a2, tr) := arun a1 os' in (a2, (o, r) :: tr)
  end.

Definition ainit (t0 : Q) (l : list (skind * Q)) : actor :=
  mkA t0 (map (fun p => mkSlot (fst p) (snd p) None []) l) [].
