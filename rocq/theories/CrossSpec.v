(** Vocabulary for the crossings of a sampled path. *)
From Coq Require Import Qround.
From Verif Require Import Common CrossModel.

Section CrossSpec.
Variable P : Type.
Variable inside : P -> bool.
(** Neighbouring samples, in order, and those between which the path crosses. *)
Definition neighbours (l : list P) : list (P * P) := combine l (tl l).
Definition crossings (l : list P) : list (P * P) :=
  filter (fun pq => xorb (inside (fst pq)) (inside (snd pq))) (neighbours l).
Definition crossing (pq : P * P) : cond P :=
  mkC P (if inside (snd pq) then ENTER else EXIT) (fst pq) (Some (snd pq)).
Definition start_of (p : P) : cond P := mkC P (if inside p then START_INSIDE else START_OUT) p None.
Definition end_of (p : P) : cond P := mkC P (if inside p then END_INSIDE else END_OUT) p None.
(** Entries and exits take turns: after an entry (a start inside) comes an exit. *)
Fixpoint turns (now_in : bool) (l : list (cond P)) : Prop :=
  match l with
  | [] => True
  | c :: l' => c_kind P c = (if now_in then EXIT else ENTER) /\ turns (negb now_in) l'
  end.
(** The sampling of an earth model: the samples run from one end to the other ... *)
Definition good_line (line : P -> P -> nat -> list P) : Prop :=
  forall a b n, exists mid, line a b (S n) = a :: mid ++ [b].
(** ... and between a point inside and one outside the path crosses once. *)
Definition crosses_once (line : P -> P -> nat -> list P) : Prop :=
  forall a b n, xorb (inside a) (inside b) = true -> (length (crossings (line a b n)) <= 1)%nat.
(** The distance used after halving [k] times. *)
Fixpoint halved (b : Q) (k : nat) : Q := match k with O => b | S k' => halved (b / 2) k' end.
(** [rs] are neighbours on different sides, found from [pq] by sampling between them, then
    between two neighbours on different sides, and so on for each level, dividing the
    distance wanted between samples by the level each time (halving it further if the
    segment would have less than 3 parts). *)
Inductive between_samples (gdist : P -> P -> Q) (line : P -> P -> nat -> list P) : Q -> list Q -> P * P -> P * P -> Prop :=
| Finest between pq : between_samples gdist line between [] pq pq
| Finer between d levels a b k n pq rs :
    n = Z.to_nat (Qfloor (gdist a b / halved (between / d) k) + 1) -> (3 <= n)%nat ->
    (k = 0%nat \/ 100 <= halved (between / d) k) ->
    In pq (neighbours (line a b n)) -> xorb (inside (fst pq)) (inside (snd pq)) = true ->
    between_samples gdist line (between / d) levels pq rs ->
    between_samples gdist line between (d :: levels) (a, b) rs.
End CrossSpec.
