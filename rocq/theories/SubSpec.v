(** Vocabulary: a straight leg, the part of it in range, and what a list of crossings
    says about it. *)
From Verif Require Import Common CrossModel.

Section SubSpec.
Variable P : Type.
(** [on p x]: p is the place at fraction x of the leg, 0 the start and 1 the finish. *)
Variable on : P -> Q -> Prop.
Definition frac (k n : nat) : Q := inject_Z (Z.of_nat k) / inject_Z (Z.of_nat n).
(** Sampling between two places of the leg gives evenly spaced places of the leg ... *)
Definition even_line (line : P -> P -> nat -> list P) : Prop :=
  forall p q s t n, on p s -> on q t -> s < t -> (0 < n)%nat ->
    length (line p q n) = S n /\
    forall k x, nth_error (line p q n) k = Some x -> on x (s + (t - s) * frac k n).
(** ... and distances on the leg, [D] metres long, are differences of fractions. *)
Definition measured (gdist : P -> P -> Q) (D : Q) : Prop :=
  forall p q s t, on p s -> on q t -> s <= t -> gdist p q == (t - s) * D.
(** The part of the leg in range is that from fraction [u] to [v]. *)
Definition in_range (inside : P -> bool) (u v : Q) : Prop :=
  forall p x, on p x -> (inside p = true <-> u <= x /\ x <= v).

(** A reported crossing: its kind, its place and the fraction of the leg there. *)
Record hit := mkH { h_kind : kind; h_place : P; h_frac : Q }.
(** What it says about the leg is right up to [fine] metres. *)
Definition right (D u v fine : Q) (h : hit) : Prop :=
  on (h_place h) (h_frac h) /\ 0 <= h_frac h <= 1 /\ u <= h_frac h <= v /\
  match h_kind h with
  | START_INSIDE => h_frac h == 0
  | END_INSIDE => h_frac h == 1
  | ENTER => 0 < u /\ (h_frac h - u) * D < fine
  | EXIT => v < 1 /\ (v - h_frac h) * D < fine
  | START_OUT | END_OUT => False
  end.
(** The four ways a leg can meet a range, or none. *)
Definition one_visit (l : list kind) : Prop :=
  l = [] \/ l = [ENTER; EXIT] \/ l = [START_INSIDE; EXIT] \/ l = [ENTER; END_INSIDE] \/ l = [START_INSIDE; END_INSIDE].
Fixpoint ordered (l : list Q) : Prop :=
  match l with
  | x :: (y :: _) as l' => x <= y /\ ordered l'
  | _ => True
  end.
(** All together: the hits are one visit, in order, each right up to [fine]; one begins
    (ends) with the leg if the leg's start (end) is in range; there is none only if
    nothing of the leg is in range, or a part shorter than [coarse] away from the ends. *)
Definition describes (D u v coarse fine : Q) (l : list hit) : Prop :=
  one_visit (map h_kind l) /\ ordered (map h_frac l) /\ Forall (right D u v fine) l /\
  (u <= 0 <= v <-> exists h, In h l /\ h_kind h = START_INSIDE) /\
  (u <= 1 <= v <-> exists h, In h l /\ h_kind h = END_INSIDE) /\
  (l = [] -> (exists x, 0 <= x <= 1 /\ u <= x <= v) -> 0 < u /\ v < 1 /\ (v - u) * D < coarse).
End SubSpec.
