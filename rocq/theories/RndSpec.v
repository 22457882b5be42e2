(** Vocabulary for rounding. *)
From Coq Require Import Qabs.
From Verif Require Import Common ContinuousModel ActiveModel RndModel.

(** A way of rounding with relative error at most [u]. *)
Record rounding (u : Q) (rnd : Q -> Q) : Prop := {
  r_nonneg : 0 <= u;
  r_half : u <= 1 # 2;
  r_err : forall x, Qabs (rnd x - x) <= u * Qabs x;
  r_mono : forall x y, x <= y -> rnd x <= rnd y;
  r_idem : forall x, rnd (rnd x) == rnd x;
  r_odd : forall x, rnd (- x) == - rnd x }.

(** Times that do not go back, from [t] on; the last of them. *)
Fixpoint onward (t : Q) (ts : list Q) : Prop :=
  match ts with [] => True | t' :: ts' => t <= t' /\ onward t' ts' end.
Fixpoint last_of (t : Q) (ts : list Q) : Q := match ts with [] => t | t' :: ts' => last_of t' ts' end.
(** The relative error of Python's floats. *)
Definition u64 : Q := 1 # (2 ^ 53).
(** A number that a float can hold: 53 binary digits and a sign. *)
Definition float64 (x : Q) : Prop := exists m e : Z, (Z.abs m <= 2 ^ 53)%Z /\ x == inject_Z m * Qpower 2 e.
(** A container with the same contents and flow at another time. *)
Definition only_time (s s' : kst) : Prop :=
  k_level s' = k_level s /\ k_rate s' = k_rate s /\ k_last s' = k_last s /\ k_cap s' = k_cap s.
(** The waypoints lead from place to place; the length of the way. *)
Section Way.
Variables (P : Type) (dist : P -> P -> Q).
Fixpoint moving (current : P) (wps : list P) : Prop :=
  match wps with [] => True | w :: wps' => 0 < dist w current /\ moving w wps' end.
Fixpoint len (current : P) (wps : list P) : Q := match wps with [] => 0 | w :: wps' => dist w current + len w wps' end.
End Way.
(** A linear state that is active since [t] at rate [r]. *)
Definition linear (x : sslot) (t r : Q) : Prop := exists d, v_data x = Some d /\ d_started d = t /\ d_rate d = Some r.
(** Each value read is at most B. *)
Fixpoint values_within (rnd : Q -> Q) (B : Q) (ts : list Q) (x : sslot) : Prop :=
  match ts with
  | [] => True
  | t :: ts' => (exists v, snd (f_linear_active rnd t x) = inl v /\ Qabs v <= B) /\ values_within rnd B ts' (fst (f_linear_active rnd t x))
  end.
(** Powers. *)
Fixpoint pw (c : Q) (n : nat) : Q := match n with O => 1 | S n' => c * pw c n' end.
(** A whole multiple of 2^-a: whole numbers, halves, quarters and so on. *)
Definition grid (a : Z) (x : Q) : Prop := exists z, x == inject_Z z * Qpower 2 (- a).
(** Two containers that are the same but for how their net rate is written. *)
Definition same_flow (s s' : kst) : Prop :=
  k_rate s == k_rate s' /\
  s = mkK (k_cap s') (k_err_empty s') (k_err_full s') (k_now s') (k_level s') (k_rate s) (k_last s') (k_active s') (k_checking s')
        (k_users s') (k_checks s') (k_urgent s') (k_halt s') (k_quant s').
