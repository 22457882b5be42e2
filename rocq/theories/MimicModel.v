(** Model of mimic states: actor.py:454-566 and the mimic branch of State.__get__
    (states.py:269-280), with the recording callbacks (states.py:186-214).

    A cell is one state of one actor; cells are numbered across all actors.
    Values are integers, never None.  [typ c v]: the type check of cell [c]
    accepts [v]. *)
From Verif Require Import Common StateModel ActiveModel.

Record cell := mkCell {
  m_owner : nat;                 (* the actor *)
  m_frozen : bool; m_rec : bool; (* frozen, recording *)
  m_kv : bool;                   (* a dictionary-like state *)
  m_val : Z;
  m_hist : list (Q * Z) }.       (* _state_histories, newest first *)

Record world := mkW {
  w_now : Q;
  w_cells : list cell;
  w_mimic : list (nat * nat);    (* _mimic_states: cell -> its source, all actors *)
  w_by_task : list (nat * nat);  (* _mimic_states_by_task: (task, cell) *)
  w_calls : list (nat * nat) }.  (* _change_callbacks: (source, recording cell) *)

Inductive mout := MOk | MVal (v : Z) | MSim | MUpstage | MType | MKey | MRecursion | MIllegal.

Definition mlook (c : nat) (l : list (nat * nat)) : option nat :=
  match find (fun p => Nat.eqb (fst p) c) l with Some p => Some (snd p) | None => None end.
Definition mdel (c : nat) (l : list (nat * nat)) : list (nat * nat) := filter (fun p => negb (Nat.eqb (fst p) c)) l.

Section Mimic.
Variable typ : nat -> Z -> bool.

Definition same_entry (e x : Q * Z) : bool := Qeqb (fst e) (fst x) && Z.eqb (snd e) (snd x).
(** states.py:186-214, without record_duplicates *)
Definition m_record (now : Q) (v : Z) (c : cell) : cell :=
  if m_rec c then
    mkCell (m_owner c) (m_frozen c) (m_rec c) (m_kv c) (m_val c)
      (match m_hist c with
       | x :: _ => if same_entry (now, v) x then m_hist c else (now, v) :: m_hist c
       | [] => [(now, v)]
       end)
  else c.

Definition on_cell (c : nat) (f : cell -> cell) (l : list cell) : list cell :=
  match nth_error l c with Some x => upd c (f x) l | None => l end.

(** The recorders registered for [c] (actor.py:505-511), in registration order. *)
Fixpoint run_calls (now : Q) (v : Z) (calls : list (nat * nat)) (c : nat) (l : list cell) : list cell :=
  match calls with
  | [] => l
  | (s, m) :: calls' =>
      run_calls now v calls' c (if Nat.eqb s c then on_cell m (m_record now v) l else l)
  end.

(** State.__set__ (states.py:242-267) *)
Definition set_cell (w : world) (c : nat) (v : Z) : world * mout :=
  match nth_error (w_cells w) c with
  | None => (w, MKey)
  | Some x =>
      if m_frozen x then (w, MSim)
      else if negb (typ c v) then (w, MType)
      else
        let l1 := upd c (m_record (w_now w) v
                     (mkCell (m_owner x) (m_frozen x) (m_rec x) (m_kv x) v (m_hist x))) (w_cells w) in
        (mkW (w_now w) (run_calls (w_now w) v (w_calls w) c l1) (w_mimic w) (w_by_task w) (w_calls w), MOk)
  end.

(** State.__get__ (states.py:269-280); a cycle of mimics exhausts the fuel,
    in python the recursion limit. *)
Fixpoint read_fuel (n : nat) (w : world) (c : nat) : world * mout :=
  match n with
  | O => (w, MRecursion)
  | S n' =>
      match mlook c (w_mimic w) with
      | None => match nth_error (w_cells w) c with
                | Some x => (w, MVal (m_val x))
                | None => (w, MKey)
                end
      | Some s =>
          let '(w1, r) := read_fuel n' w s in
          match r with
          | MVal v => let '(w2, r2) := set_cell w1 c v in
                      (w2, match r2 with MOk => MVal v | e => e end)
          | e => (w1, e)
          end
      end
  end.
Definition read_cell (w : world) (c : nat) : world * mout := read_fuel (S (length (w_mimic w))) w c.

Definition is_rec (w : world) (c : nat) : bool :=
  match nth_error (w_cells w) c with Some x => m_rec x | None => false end.
Definition is_kv (w : world) (c : nat) : bool :=
  match nth_error (w_cells w) c with Some x => m_kv x | None => false end.

(** actor.py:465-511 *)
Definition mimic_on (w : world) (c s t : nat) : world * mout :=
  match mlook c (w_mimic w) with
  | Some _ => (w, MUpstage)
  | None =>
      match nth_error (w_cells w) c, nth_error (w_cells w) s with
      | Some x, Some y =>
          if m_kv x || m_kv y then (w, MSim)
          else
            let '(w1, r) := read_cell w s in
            match r with
            | MVal v =>
                if typ c v then
                  (mkW (w_now w1) (w_cells w1) (w_mimic w1 ++ [(c, s)]) (w_by_task w1 ++ [(t, c)])
                       (if m_rec x then w_calls w1 ++ [(s, c)] else w_calls w1), MOk)
                else (w1, MSim)
            | e => (w1, e)
            end
      | _, _ => (w, MKey)
      end
  end.

(** actor.py:513-528: note the last line, after everything was undone. *)
Definition mimic_off (w : world) (c t : nat) : world * mout :=
  let '(w1, r) := read_cell w c in
  match r with
  | MVal _ =>
      match mlook c (w_mimic w1) with
      | None => (w1, MKey)
      | Some s =>
          let calls := if is_rec w1 c then prem (s, c) (w_calls w1) else w_calls w1 in
          let w2 := mkW (w_now w1) (w_cells w1) (mdel c (w_mimic w1)) (w_by_task w1) calls in
          if existsb (pair_eqb (t, c)) (w_by_task w1)
          then (mkW (w_now w2) (w_cells w2) (w_mimic w2) (prem (t, c) (w_by_task w2)) (w_calls w2), MOk)
          else (w2, MKey)
      end
  | e => (w1, e)
  end.

(** The mimicking cells of one actor: the keys of its [_mimic_states]. *)
Definition owned (w : world) (a : nat) (c : nat) : bool :=
  match nth_error (w_cells w) c with Some x => Nat.eqb (m_owner x) a | None => false end.
Definition mimics_of (w : world) (a : nat) : list nat := filter (owned w a) (map fst (w_mimic w)).

Fixpoint mimic_off_list (w : world) (l : list nat) (t : nat) : world * mout :=
  match l with
  | [] => (w, MOk)
  | c :: l' => let '(w1, r) := mimic_off w c t in
               match r with MOk => mimic_off_list w1 l' t | e => (w1, e) end
  end.
(** actor.py:530-537 *)
Definition mimic_off_all (w : world) (a t : nat) : world * mout := mimic_off_list w (mimics_of w a) t.

Inductive mop :=
| MMimic (c s t : nat) | MUnmimic (c t : nat) | MUnmimicAll (a t : nat)
| MRead (c : nat) | MAssign (c : nat) (v : Z) | MTime (u : Q).

Definition mstep (w : world) (o : mop) : world * mout :=
  match o with
  | MMimic c s t => mimic_on w c s t
  | MUnmimic c t => mimic_off w c t
  | MUnmimicAll a t => mimic_off_all w a t
  | MRead c => read_cell w c
  | MAssign c v => set_cell w c v
  | MTime u => if Qleb (w_now w) u then (mkW u (w_cells w) (w_mimic w) (w_by_task w) (w_calls w), MOk)
               else (w, MIllegal)
  end.
Fixpoint mrun (w : world) (os : list mop) : world :=
  match os with [] => w | o :: os' => mrun (fst (mstep w o)) os' end.
Definition minit (t0 : Q) (l : list cell) : world := mkW t0 l [] [] [].
End Mimic.
