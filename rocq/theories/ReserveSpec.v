(** What a user observes of a [ReserveContainer]: everything here is computed
    from the history of calls and results, not from the container's fields. *)
From Verif Require Import Common ReserveModel.

(** Material put in, and material handed out. *)
Definition put_amount (e : op * out) : Q :=
  match e with (Put a _, OPut) => a | _ => 0 end.
Definition taken_amount (e : op * out) : Q :=
  match e with (_, OTaken a) => a | _ => 0 end.
Definition total_put (tr : list (op * out)) : Q := Qsum (map put_amount tr).
Definition total_taken (tr : list (op * out)) : Q := Qsum (map taken_amount tr).

(** A call that was refused. *)
Definition rejected (r : out) : Prop :=
  r = OReserved false \/ r = OCancelled false \/ r = OValueError.

(** What a requester holds according to the history. *)
Definition held_step (keyof : Z -> Z) (k : Z) (h : option Q) (e : op * out) : option Q :=
  match e with
  | (Reserve r q _, OReserved true) => if Z.eqb (keyof r) k then Some q else h
  | (Cancel r, OCancelled true) => if Z.eqb (keyof r) k then None else h
  | (Take r, OTaken _) => if Z.eqb (keyof r) k then None else h
  | (_, OExpired t (Some _)) => if Z.eqb (keyof (t_req t)) k then None else h
  | _ => h
  end.
Definition held keyof (k : Z) (tr : list (op * out)) : option Q :=
  fold_left (held_step keyof k) tr None.

(** Callers that only reserve and put non-negative amounts. *)
Definition nonneg_op (o : op) : Prop :=
  match o with Reserve _ q _ => 0 <= q | Put a _ => 0 <= a | _ => True end.

(** Material promised to requesters. *)
Definition reserved (s : st) : Q := Qsum (map e_qty (queued s)).

(** The amount reserved at the moment of the last successful put, from [d]. *)
Fixpoint reserved_at_last_put keyof (s : st) (os : list op) (d : Q) : Q :=
  match os with
  | [] => d
  | o :: os' =>
      let '(s1, r) := step keyof s o in
      reserved_at_last_put keyof s1 os' (match r with OPut => reserved s | _ => d end)
  end.

Definition no_capacity_increase (o : op) : Prop :=
  match o with Put _ true => False | _ => True end.

(** Along the run, a requester whose earlier reservation still has a pending
    expiry timer does not get a new reservation. *)
Fixpoint no_overlap keyof (s : st) (os : list op) : Prop :=
  match os with
  | [] => True
  | o :: os' =>
      let '(s1, r) := step keyof s o in
      (match o, r with
       | Reserve q _ _, OReserved true =>
           forall t, In t (timers s) -> keyof (t_req t) <> keyof q
       | _, _ => True
       end) /\ no_overlap keyof s1 os'
  end.
