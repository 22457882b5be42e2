(** Vocabulary for reservations with floats. *)
From Coq Require Import Qabs.
From Verif Require Import Common ReserveModel RndSpec RsvModel.
(** Neither of the two levels is ever larger than B, from now on. *)
Fixpoint levels_within (rnd : Q -> Q) (keyof : Z -> Z) (B : Q) (s : st) (os : list op) : Prop :=
  Qabs (level s) <= B /\ Qabs (real_level s) <= B /\
  match os with
  | [] => True
  | o :: os' => levels_within rnd keyof B (fst (f_step rnd keyof s o)) os'
  end.
(** All amounts and times in a call are whole multiples of 2^-a. *)
Definition grid_op (a : Z) (o : op) : Prop :=
  match o with
  | Reserve _ q ex => grid a q /\ forall d, ex = Some d -> grid a d
  | Put x _ => grid a x
  | Wait t => grid a t
  | _ => True
  end.
(** How much is put in, by all calls together, and how late it can become. *)
Fixpoint put_budget (os : list op) : Q :=
  match os with [] => 0 | Put x _ :: os' => x + put_budget os' | _ :: os' => put_budget os' end.
Fixpoint time_budget (os : list op) : Q :=
  match os with
  | [] => 0
  | Reserve _ _ (Some d) :: os' => Qabs d + time_budget os'
  | Wait t :: os' => Qabs t + time_budget os'
  | _ :: os' => time_budget os'
  end.
