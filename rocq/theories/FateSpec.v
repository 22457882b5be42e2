(** Requests withdrawn while still waiting. *)
From Verif Require Import Common StoreModel ContainerModel.

Definition cancelled (A : Type) (h : list (happening A)) : list nat :=
  flat_map (fun e => match e with HCancelled r => [r] | _ => [] end) h.
Definition c_cancelled (h : list chap) : list nat :=
  flat_map (fun e => match e with CCancelled r => [r] | _ => [] end) h.
