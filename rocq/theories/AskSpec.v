(** Vocabulary for the requests made of a store and the answers they get. *)
From Coq Require Import Permutation.
From Verif Require Import Common StoreModel.

Section Spec.
Variable A : Type.
Inductive request := RPut (x : A) | RGet (g : greq A).
(** The requests among the operations, numbered from [k]. *)
Fixpoint asked (k : nat) (os : list (op A)) : list (nat * request) :=
  match os with
  | [] => []
  | OpPut x :: os' => (k, RPut x) :: asked (S k) os'
  | OpGet g :: os' => (k, RGet g) :: asked (S k) os'
  | _ :: os' => asked k os'
  end.
(** The last thing that happens to a request: it is done, or taken back *)
Definition answers (h : list (happening A)) : list nat :=
  flat_map (fun e => match e with HPutDone r _ | HDelivered r _ | HLost r _ | HCancelled r => [r] | _ => [] end) h.
(** Requests without an answer: queued, or granted and to be told *)
Definition of_event (e : ev A) : nat := match e with EPut r _ | EGet r _ => r end.
Definition open_requests (s : st A) : list nat :=
  map fst (s_putq s) ++ map fst (s_getq s) ++ map of_event (s_agenda s).
(** What a get may be given: plain stores do not look, the others only give what passes
    the filter. *)
Definition suits (k : kind) (g : greq A) (x : A) : Prop := k = KStore \/ g_filter g x = true.
End Spec.
Arguments RPut {A}. Arguments RGet {A}. Arguments asked {A}. Arguments answers {A}. Arguments of_event {A}. Arguments open_requests {A}. Arguments suits {A}.
