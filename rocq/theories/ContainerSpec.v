(** Observations on containers and on recorded level histories. *)
From Coq Require Import Sorted.
From Verif Require Import Common ContainerModel.

(** Granted puts / gets, deliveries and losses of a history, in order. *)
Definition c_in (h : list chap) : list (nat * Q) :=
  flat_map (fun e => match e with CIn r a => [(r, a)] | _ => [] end) h.
Definition c_out (h : list chap) : list (nat * Q) :=
  flat_map (fun e => match e with COut r a => [(r, a)] | _ => [] end) h.

(** Total of the amounts; a level respects an optional capacity. *)
Definition amounts (l : list (nat * Q)) : Q := Qsum (map snd l).
Definition cap_ok (cap : option Q) (l : Q) : Prop := match cap with Some c => l <= c | None => True end.

(** ** Recorded level histories, newest first *)
Fixpoint level_at (t : Q) (hist : list (Q * Q)) : option Q :=
  match hist with
  | [] => None
  | (u, v) :: hist' => if Qleb u t then Some v else level_at t hist'
  end.
Definition oeq (a b : option Q) : Prop :=
  match a, b with Some x, Some y => x == y | None, None => True | _, _ => False end.
Fixpoint readings_ordered (hist : list (Q * Q)) : Prop :=
  match hist with
  | (u, _) :: (((w, _) :: _) as hist') => w <= u /\ readings_ordered hist'
  | _ => True
  end.
Fixpoint readings_distinct (hist : list (Q * Q)) : Prop :=
  match hist with
  | (u, v) :: (((w, x) :: _) as hist') => ~ (u == w /\ v == x) /\ readings_distinct hist'
  | _ => True
  end.

(** The true history: clock and level after every single operation. *)
Section True.
Variables (S O : Type) (step1 : S -> O -> S) (clock lvl : S -> Q).
Fixpoint true_levels (s : S) (os : list O) (acc : list (Q * Q)) : list (Q * Q) :=
  match os with
  | [] => acc
  | o :: os' => let s1 := step1 s o in true_levels s1 os' ((clock s1, lvl s1) :: acc)
  end.
End True.
