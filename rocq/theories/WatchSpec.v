(** Vocabulary for what the stepped motion manager looks at. *)
From Coq Require Import String.
From Verif Require Import Common WatchModel.

Section Spec.
Variable L : Type.
Variable dist : L -> L -> Q.
(** The value of an attribute *)
Definition has (e : ent L) (n : string) (v : value L) : Prop := sget n (o_attrs L e) = Some v.
Definition there (e : ent L) (n : string) : Prop := exists v, has e n v.
(** The radius and location attributes of the last registration of a sensor that succeeded;
    histories are newest first *)
Fixpoint sensing (s : nat) (h : list (op L * out)) : option (string * string) :=
  match h with
  | [] => None
  | (AddSensor _ s' r l, Did) :: h' => if Nat.eqb s' s then Some (r, l) else sensing s h'
  | _ :: h' => sensing s h'
  end.
(** The states of a class, and the first of them *)
Definition of_class (e : ent L) (k : skind) (n : string) : Prop := In (n, k) (states_of L e).
Definition first_of (e : ent L) (k : skind) (n : string) : Prop :=
  exists a b, states_of L e = a ++ (n, k) :: b /\ forall m, ~ In (m, k) a.
(** The location state looked at for a mover not registered otherwise *)
Definition moves_at (e : ent L) (n : string) : Prop :=
  first_of e SGeo n \/ (forall m, ~ of_class e SGeo m) /\ first_of e SCart n.
(** Target [d] is looked at by its attribute [n] *)
Fixpoint watched (es : nat -> ent L) (d : nat) (h : list (op L * out)) (n : string) : Prop :=
  match h with
  | [] => False
  | (AddTarget _ d' l _, Did) :: h' => if Nat.eqb d' d then n = l else watched es d h' n
  | (StartMover _ m _, Did) :: h' =>
      if Nat.eqb m d then watched es d h' n \/ (forall k, ~ watched es d h' k) /\ moves_at (es d) n
      else watched es d h' n
  | (StopMover _ m, _) :: h' => m <> d /\ watched es d h' n
  | _ :: h' => watched es d h' n
  end.
(** The class of actor allows for at most one detectability state *)
Definition one_detectability (e : ent L) : Prop :=
  forall n m, of_class e SDetect n -> of_class e SDetect m -> n = m.
(** A target can be seen *)
Definition can_be_seen (e : ent L) : Prop := forall n, of_class e SDetect n -> has e n (VBool L true).
(** The target's attribute [dn] is within the range of the sensor *)
Definition in_range (es : nat -> ent L) (s d : nat) (rn ln dn : string) : Prop :=
  exists p, has (es d) dn (VLoc L p) /\
  match o_check L (es s) with
  | Some f => f p = true
  | None => exists q r, has (es s) ln (VLoc L q) /\ has (es s) rn (VNum L r) /\ dist q p <= r
  end.
(** What is looked at is of the right sort: places, numbers and, for detectability,
    booleans *)
Definition place (e : ent L) (n : string) : Prop := forall v, has e n v -> exists p, v = VLoc L p.
Definition number (e : ent L) (n : string) : Prop := forall v, has e n v -> exists q, v = VNum L q.
Definition boolean (e : ent L) : Prop := forall n v, of_class e SDetect n -> has e n v -> exists b, v = VBool L b.
(** Names of states are distinct, as keys of a dict are *)
Definition names_once (e : ent L) : Prop := NoDup (map fst (states_of L e)).
End Spec.
