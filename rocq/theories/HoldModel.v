(** Model of ResourceHold (events.py:635-711) with BaseRequestEvent.cancel
    (278-284), on a simpy Resource (simpy 4.1.1, resources/base.py and
    resources/resource.py, part of the trusted base): a Request is a put, a
    Release a get; both triggers stop after the first element of their queue
    because Resource._do_put and _do_get return None.

    Requests are numbered in order of creation.  Other users of the resource are
    other holds, or processes calling request, release and cancel directly. *)
From Verif Require Import Common ActiveModel.

Inductive rstat := QWaiting | QGranted | QProcessed | QWithdrawn.
Inductive hevent := ARequest (r : nat) | ARelease.     (* triggered, to be processed *)
Inductive hstage := SRequest | SRelease | SCompleted.
Record hold := mkH { h_stage : hstage; h_req : option nat;      (* _stage, _request *)
                     h_rel : bool }.                            (* _request_event is the Release *)
Record hst := mkHS {
  hs_cap : nat;
  hs_users : list nat;               (* Resource.users *)
  hs_queue : list nat;               (* Resource.put_queue *)
  hs_reqs : list rstat;
  hs_agenda : list hevent;
  hs_holds : list hold;
  hs_own : list (option nat) }.      (* who made each request: a hold or someone else *)

Inductive hop :=
| HNew                               (* a new ResourceHold *)
| HYield (i : nat)                   (* as_event *)
| HCancel (i : nat)
| HTick                              (* the oldest triggered event is processed *)
| XRequest | XRelease (r : nat) | XCancel (r : nat).   (* by others *)
Inductive hout :=
| HOk | HRequested (r : nat) | HReleased (r : nat) | HSimErr | HUpErr | HIllegal.

Definition hinit (cap : nat) : hst := mkHS cap [] [] [] [] [] [].
Fixpoint remove1 (r : nat) (l : list nat) : list nat :=
  match l with [] => [] | x :: l' => if Nat.eqb x r then l' else x :: remove1 r l' end.

(** Resource._do_put inside _trigger_put: only the head of the queue. *)
Definition grant (s : hst) : hst :=
  match hs_queue s with
  | r :: q =>
      if Nat.ltb (length (hs_users s)) (hs_cap s)
      then mkHS (hs_cap s) (hs_users s ++ [r]) q (upd r QGranted (hs_reqs s)) (hs_agenda s ++ [ARequest r])
                (hs_holds s) (hs_own s)
      else s
  | [] => s
  end.
(** Request.__init__ *)
Definition request (s : hst) (own : option nat) : hst * nat :=
  let r := length (hs_reqs s) in
  (grant (mkHS (hs_cap s) (hs_users s) (hs_queue s ++ [r]) (hs_reqs s ++ [QWaiting]) (hs_agenda s)
               (hs_holds s) (hs_own s ++ [own])), r).
(** Release.__init__: Resource._do_get removes the request if it is there and
    the release is triggered at once. *)
Definition release (s : hst) (r : nat) : hst :=
  mkHS (hs_cap s) (remove1 r (hs_users s)) (hs_queue s) (hs_reqs s) (hs_agenda s ++ [ARelease]) (hs_holds s) (hs_own s).
(** Put.cancel *)
Definition withdraw (s : hst) (r : nat) : hst :=
  match nth_error (hs_reqs s) r with
  | Some QWaiting => mkHS (hs_cap s) (hs_users s) (remove1 r (hs_queue s)) (upd r QWithdrawn (hs_reqs s))
                          (hs_agenda s) (hs_holds s) (hs_own s)
  | _ => s
  end.
Definition put_hold (s : hst) (i : nat) (h : hold) : hst :=
  mkHS (hs_cap s) (hs_users s) (hs_queue s) (hs_reqs s) (hs_agenda s) (upd i h (hs_holds s)) (hs_own s).
Definition foreign (s : hst) (r : nat) : bool :=
  match nth_error (hs_own s) r with Some None => true | _ => false end.

Definition hstep (s : hst) (o : hop) : hst * hout :=
  match o with
  | HNew => (mkHS (hs_cap s) (hs_users s) (hs_queue s) (hs_reqs s) (hs_agenda s)
                  (hs_holds s ++ [mkH SRequest None false]) (hs_own s), HOk)
  | HYield i =>                                                   (* events.py:689-711 *)
      match nth_error (hs_holds s) i with
      | None => (s, HIllegal)
      | Some h =>
          match h_stage h with
          | SRequest => let '(s1, r) := request s (Some i) in
                        (put_hold s1 i (mkH SRelease (Some r) false), HRequested r)
          | SRelease =>
              match h_req h with
              | None => (s, HSimErr)
              | Some r =>
                  match nth_error (hs_reqs s) r with
                  | Some QProcessed => (put_hold (release s r) i (mkH SCompleted (Some r) true), HReleased r)
                  | _ => (s, HSimErr)
                  end
              end
          | SCompleted => (s, HUpErr)
          end
      end
  | HCancel i =>                                                  (* events.py:278-284 *)
      match nth_error (hs_holds s) i with
      | None => (s, HIllegal)
      | Some h => if h_rel h then (s, HOk)                        (* a Release is triggered *)
                  else match h_req h with Some r => (withdraw s r, HOk) | None => (s, HOk) end
      end
  | HTick =>
      match hs_agenda s with
      | [] => (s, HIllegal)
      | e :: ag =>
          let s1 := mkHS (hs_cap s) (hs_users s) (hs_queue s) (hs_reqs s) ag (hs_holds s) (hs_own s) in
          match e with
          | ARequest r => (mkHS (hs_cap s1) (hs_users s1) (hs_queue s1) (upd r QProcessed (hs_reqs s1)) (hs_agenda s1)
                                (hs_holds s1) (hs_own s1), HOk)    (* _trigger_get: no release is waiting *)
          | ARelease => (grant s1, HOk)                            (* _trigger_put *)
          end
      end
  | XRequest => let '(s1, r) := request s None in (s1, HRequested r)
  | XRelease r => if foreign s r then (release s r, HOk) else (s, HIllegal)
  | XCancel r => if foreign s r then (withdraw s r, HOk) else (s, HIllegal)
  end.
Fixpoint hrun (s : hst) (os : list hop) : hst * list (hop * hout) :=
  match os with
  | [] => (s, [])
  | o :: os' => let '(s1, a) := hstep s o in
                let '(s2, l) := hrun s1 os' in (s2, (o, a) :: l)
  end.
