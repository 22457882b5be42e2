(** Vocabulary for motion between locations whose heights may be in altitude units. *)
From Coq Require Import Reals List.
From Verif Require Import LinSpec LocModel.
Import ListNotations.
Open Scope R_scope.

(** When the mover gets to the points. *)
Fixpoint arrivals (speed : R) (a : point) (ws : list point) (t : R) : list R :=
  match ws with [] => [] | b :: ws' => let t' := t + apart a b / speed in t' :: arrivals speed b ws' t' end.
(** 1e-12: how late a waypoint may be noticed. *)
Definition SLACK : R := 1 / 1000000000000.
(** Not so soon after the arrival at a waypoint. *)
Definition settled (speed : R) (a : point) (ws : list point) (e : R) : Prop :=
  forall t, In t (arrivals speed a ws 0) -> e <= t \/ t + SLACK < e.
(** The first leg is not of length zero, or has been noticed to be over. *)
Definition off (a : point) (ws : list point) (e : R) : Prop :=
  SLACK < e \/ match ws with [] => True | b :: _ => a <> b end.
