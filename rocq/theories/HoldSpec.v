(** Vocabulary for resource holds. *)
From Verif Require Import Common HoldModel.

(** What hold [i] asked of the resource and got, in order. *)
Inductive move := MAcquire (r : nat) | MGiveBack (r : nat).
Definition moves (i : nat) (tr : list (hop * hout)) : list move :=
  flat_map (fun e => match e with
                     | (HYield j, HRequested r) => if Nat.eqb j i then [MAcquire r] else []
                     | (HYield j, HReleased r) => if Nat.eqb j i then [MGiveBack r] else []
                     | _ => []
                     end) tr.
(** The resource is in use by request [r], made by hold [i]. *)
Definition holds_on (s : hst) (i r : nat) : Prop := In r (hs_users s) /\ nth_error (hs_own s) r = Some (Some i).
Definition free (s : hst) : nat := (hs_cap s - length (hs_users s))%nat.
Definition releases (s : hst) : nat :=
  length (filter (fun e => match e with ARelease => true | _ => false end) (hs_agenda s)).
Definition waiting_for (s : hst) (r : nat) : Prop := In r (hs_queue s).
Fixpoint ticks (n : nat) : list hop := match n with O => [] | S n' => HTick :: ticks n' end.
