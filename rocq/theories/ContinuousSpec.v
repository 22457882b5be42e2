(** Vocabulary for the continuous container properties. *)
From Verif Require Import Common ContainerModel ContainerSpec ContinuousModel.

(** Sum of the rates of the users that are putting (positive) or getting
    (negative) at present. *)
Definition net_flow (s : kst) : Q := Qsum (map (rate_of s) (k_active s)).

(** What flowed in between the visited states (newest first): for each pair of
    successive states, the net flow in the earlier one times the elapsed time. *)
Fixpoint volume (visited : list kst) : Q :=
  match visited with
  | s2 :: ((s1 :: _) as rest) => net_flow s1 * (k_now s2 - k_now s1) + volume rest
  | _ => 0
  end.

(** Users told at this instant that the limit was reached: pending
    empty/full interrupts. *)
Definition told (s : kst) : list nat :=
  flat_map (fun e => match e with UInt u Limit => [u] | _ => [] end) (k_urgent s).

(** Users started with a sensible duration. *)
Definition sane (o : kop) : Prop :=
  match o with KPut _ (Some d) => 0 <= d | KGet _ (Some d) => 0 <= d | _ => True end.
Definition no_cancel (o : kop) : Prop := match o with KCancel _ => False | _ => True end.

(** The limit the level is heading for, and being there. *)
Definition bound (s : kst) : Q := if Qltb 0 (k_rate s) then k_cap s else 0.
Definition at_limit (s : kst) : Prop := ~ k_rate s == 0 /\ cur_level s == bound s.

(** Users told by a step; users putting into a full, or getting from an empty container. *)
Definition newly_told (s s' : kst) (u : nat) : Prop := In u (told s') /\ ~ In u (told s).
Definition responsible (s : kst) (u : nat) : Prop :=
  In u (k_active s) /\
  ((k_rate s < 0 /\ rate_of s u < 0 /\ cur_level s == 0) \/ (0 < k_rate s /\ 0 < rate_of s u /\ cur_level s == k_cap s)).

(** [s] can be reached from a new container created with 0 <= init <= capacity. *)
Definition reachable (s : kst) : Prop :=
  exists cap lvl ee ef t0 s0 os, kinit cap lvl ee ef t0 = Some s0 /\ lvl <= cap /\ s = krun s0 os.
