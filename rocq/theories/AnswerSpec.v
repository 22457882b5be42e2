(** Vocabulary for the requests made of a container and the answers they get. *)
From Coq Require Import Permutation.
From Verif Require Import Common ContainerModel.

Inductive request := RPut (a : Q) | RGet (a : Q).
(** The requests with a positive amount among the operations, numbered from [k]. *)
Fixpoint asked (k : nat) (os : list cop) : list (nat * request) :=
  match os with
  | [] => []
  | CPut a :: os' => if Qleb a 0 then asked k os' else (k, RPut a) :: asked (S k) os'
  | CGet a :: os' => if Qleb a 0 then asked k os' else (k, RGet a) :: asked (S k) os'
  | _ :: os' => asked k os'
  end.
(** The last thing that happens to a request: it is done, or taken back *)
Definition answers (h : list chap) : list nat :=
  flat_map (fun e => match e with CPutDone r _ | CGot r _ | CLost r _ | CCancelled r => [r] | _ => [] end) h.
(** Requests without an answer: queued, or granted and to be told *)
Definition of_event (e : cev) : nat := match e with CEPut r _ | CEGet r _ => r end.
Definition open_requests (s : cst) : list nat :=
  map fst (c_putq s) ++ map fst (c_getq s) ++ map of_event (c_agenda s).
