(** Vocabulary for the stepped motion manager. *)
From Verif Require Import Common StepModel.

(** What a sensor was told about an entity. *)
Fixpoint told (s d : nat) (l : list out) : list bool :=
  match l with
  | [] => []
  | Entered s' d' :: l' => if Nat.eqb s s' && Nat.eqb d d' then true :: told s d l' else told s d l'
  | Exited s' d' :: l' => if Nat.eqb s s' && Nat.eqb d d' then false :: told s d l' else told s d l'
  | KeyError :: l' => told s d l'
  end.
(** Taking turns, [next] being what comes first. *)
Fixpoint alternates (next : bool) (l : list bool) : Prop :=
  match l with
  | [] => True
  | x :: l' => x = next /\ alternates (negb next) l'
  end.
Section StepSpec.
Variable L : Type.
Variable dist : L -> L -> Q.
Variable check : nat -> option (L -> bool).
(** It can be detected, and the sensor's test says it is in range. *)
Definition can_be_detected (x : st L) (d : nat) : Prop := detect L x d <> Some false.
Definition in_range (x : st L) (s d : nat) : Prop :=
  match check s with
  | Some f => f (pos L x d) = true
  | None => dist (pos L x s) (pos L x d) <= radius L x s
  end.
(** The sensor was last told that the entity entered. *)
Definition considered (s d : nat) (outs : list out) : Prop := last (told s d outs) false = true.
End StepSpec.
(** What the history says: where an entity was put last, its last radius, whether it was last made detectable, whether
    the sensor was added, whether the entity was last added or removed. *)
Section StepHistory.
Variable L : Type.
Definition put_last (k : nat) (ops : list (op L)) (p : L) : L :=
  fold_left (fun p o => match o with Move _ j q => if Nat.eqb k j then q else p | _ => p end) ops p.
Definition radius_last (k : nat) (ops : list (op L)) (r : Q) : Q :=
  fold_left (fun r o => match o with SetRadius _ j q => if Nat.eqb k j then q else r | _ => r end) ops r.
Definition shown_last (k : nat) (ops : list (op L)) (d : option bool) : option bool :=
  match d with
  | None => None
  | Some b => Some (fold_left (fun b o => match o with SetDetect _ j c => if Nat.eqb k j then c else b | _ => b end) ops b)
  end.
Definition added (k : nat) (ops : list (op L)) : bool :=
  fold_left (fun b o => match o with AddDetectable _ j | StartMover _ j => if Nat.eqb k j then true else b
                                   | StopMover _ j => if Nat.eqb k j then false else b | _ => b end) ops false.
End StepHistory.
(** Checks at [t], [t + timestep], ... *)
Fixpoint spaced (timestep t : Q) (l : list (Q * bool)) : Prop :=
  match l with
  | [] => True
  | c :: l' => fst c == t /\ spaced timestep (t + timestep) l'
  end.
Section StepTimes.
Variable L : Type.
Variable dist : L -> L -> Q.
Variable check : nat -> option (L -> bool).
Variable timestep : Q.
Variable max_empty : nat.
(** A timeout of the loop is processed: all pairs are checked. *)
Definition checks_now (x : st L) (o : op L) : option bool :=
  match o, loop L x with
  | Step _ e, Some (_, due) => if Qeqb due (now L x) then Some e else None
  | _, _ => None
  end.
(** A call of run() begins while no loop has begun. *)
Definition begins_now (x : st L) (o : op L) : bool :=
  match o with
  | Begin _ => (0 <? pending L x)%nat && negb (is_running L x)
  | _ => false
  end.
(** When the loops began, when all pairs were checked, and whether other events were
    left each time. *)
Fixpoint begins (x : st L) (ops : list (op L)) : list Q :=
  match ops with
  | [] => []
  | o :: ops' =>
      let r := begins (fst (step L dist check timestep max_empty x o)) ops' in
      if begins_now x o then now L x :: r else r
  end.
Fixpoint checks (x : st L) (ops : list (op L)) : list (Q * bool) :=
  match ops with
  | [] => []
  | o :: ops' =>
      let r := checks (fst (step L dist check timestep max_empty x o)) ops' in
      match checks_now x o with Some e => (now L x, e) :: r | None => r end
  end.
(** How many of the last checks found nothing else to do. *)
Fixpoint idle_run (l : list bool) (n : nat) : nat :=
  match l with
  | [] => n
  | true :: l' => idle_run l' (S n)
  | false :: l' => idle_run l' 0
  end.
End StepTimes.
