(** Vocabulary for windowed gets. *)
From Verif Require Import Common StoreModel StoreSpec WinModel.

Section Spec.
Variable A : Type.

(** Of a list of (request, item), the items of the given requests. *)
Definition of_requests (ids : list nat) (l : list (nat * A)) : list A :=
  map snd (filter (fun p => existsb (Nat.eqb (fst p)) ids) l).
(** Items accepted by the routine, with times. *)
Definition accepted (tr : list (wop A * wout A)) : list (A * Q) :=
  flat_map (fun e => match snd e with WGot x t => [(x, t)] | _ => [] end) tr.
(** The routine gives its Get up while the Get is granted but not processed. *)
Definition gives_up_late (w : wst A) (o : wop A) : Prop :=
  match o, w_phase w with
  | WResume, PWait r => w_fired w = true /\ w_got w = None /\ granted_get A (w_s w) r
  | WInterrupt, PWait r => w_fired w = false /\ granted_get A (w_s w) r
  | _, _ => False
  end.
Variable eqb : A -> A -> bool.
Variable truthy : A -> bool.
Variable item_func : list A -> Z.
Variable req : greq A.
Variable timeout : Q.
Variable reset : bool.
Fixpoint timely (w : wst A) (os : list (wop A)) : Prop :=
  match os with
  | [] => True
  | o :: os' => ~ gives_up_late w o /\ timely (fst (fst (wstep A eqb truthy item_func req timeout reset w o))) os'
  end.
(** When the window that is open after accepting [l] closes. *)
Definition closes (l : list (A * Q)) : option Q :=
  match l with
  | [] => None
  | (_, t) :: _ => if reset then option_map (fun e => snd e + timeout) (nth_error l (length l - 1)) else Some (t + timeout)
  end.
End Spec.
