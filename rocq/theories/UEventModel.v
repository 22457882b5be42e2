(** Model of the reusable Event (events.py:768-872) over simpy events (simpy
    4.1.1, events.py, part of the trusted base).

    An UPSTAGE Event owns one simpy event at a time; resets replace it.  The
    model follows all simpy events made for one UPSTAGE Event, the processes
    registered on each (a fresh number for every yield), the agenda of triggered
    ones, and the processes still to be resumed by the one being processed: they
    are resumed one after the other and may act on the Event in between.  A
    process woken looks at the payload (get_payload) at once.  Payloads are
    opaque; [None] is the empty one of a new Event.  Time plays no role: succeed
    has no delay. *)
From Verif Require Import Common ActiveModel.

Inductive estat := EPending | ETriggered | EProcessed.
Record sev := mkSev { v_stat : estat; v_waiters : list nat }.      (* value/callbacks *)
Record ust := mkU {
  u_evs : list sev;
  u_cur : nat;                        (* self._event *)
  u_payload : option nat;             (* self._payload *)
  u_auto : bool;                      (* self._auto_reset *)
  u_agenda : list nat;
  u_ready : list nat;                 (* callbacks still to run of the event in process *)
  u_next : nat }.                     (* yields so far *)
Inductive uop := UYield | USucceed (p : option nat) | UReset | UCancel | UTick | UWake.
Inductive uout := UWaits (w : nat) | UOk | UWoke (w : nat) (p : option nat)
  | UUpErr | USimErr | URuntime | UIllegal.

Definition fresh_ev : sev := mkSev EPending [].
(** Event.__init__ 780-797 *)
Definition uinit (auto : bool) : ust := mkU [fresh_ev] 0 None auto [] [] 0.
Definition cur_stat (s : ust) : estat :=
  match nth_error (u_evs s) (u_cur s) with Some v => v_stat v | None => EPending end.
(** is_complete 832-838: simpy's Event.processed *)
Definition complete (s : ust) : bool := match cur_stat s with EProcessed => true | _ => false end.
(** reset 848-851 *)
Definition do_reset (s : ust) : ust :=
  mkU (u_evs s ++ [fresh_ev]) (length (u_evs s)) (u_payload s) (u_auto s) (u_agenda s) (u_ready s) (u_next s).
(** simpy Event.succeed: raises RuntimeError if triggered *)
Definition trigger (s : ust) : ust * uout :=
  match nth_error (u_evs s) (u_cur s) with
  | Some (mkSev EPending ws) =>
      (mkU (upd (u_cur s) (mkSev ETriggered ws) (u_evs s)) (u_cur s) (u_payload s) (u_auto s)
           (u_agenda s ++ [u_cur s]) (u_ready s) (u_next s), UOk)
  | _ => (s, URuntime)
  end.
(** The process calling as_event registers on the simpy event it gets. *)
Definition register (s : ust) : ust * uout :=
  match nth_error (u_evs s) (u_cur s) with
  | Some (mkSev k ws) =>
      (mkU (upd (u_cur s) (mkSev k (ws ++ [u_next s])) (u_evs s)) (u_cur s) (u_payload s) (u_auto s)
           (u_agenda s) (u_ready s) (S (u_next s)), UWaits (u_next s))
  | None => (s, UIllegal)
  end.
Definition set_payload (s : ust) (p : option nat) : ust :=
  mkU (u_evs s) (u_cur s) p (u_auto s) (u_agenda s) (u_ready s) (u_next s).

Definition ustep (s : ust) (o : uop) : ust * uout :=
  match o with
  | UYield =>                                                    (* as_event 807-820 *)
      if complete s then (if u_auto s then register (do_reset s) else (s, UUpErr))
      else register s
  | USucceed p =>                                                (* 822-830 *)
      if complete s then (s, USimErr) else trigger (set_payload s p)
  | UReset => (do_reset s, UOk)
  | UCancel => trigger s                                         (* 853-862 *)
  | UTick =>
      match u_ready s, u_agenda s with
      | [], e :: ag =>
          match nth_error (u_evs s) e with
          | Some v => (mkU (upd e (mkSev EProcessed []) (u_evs s)) (u_cur s) (u_payload s) (u_auto s) ag (v_waiters v) (u_next s), UOk)
          | None => (s, UIllegal)
          end
      | _, _ => (s, UIllegal)
      end
  | UWake =>
      match u_ready s with
      | w :: ws => (mkU (u_evs s) (u_cur s) (u_payload s) (u_auto s) (u_agenda s) ws (u_next s), UWoke w (u_payload s))
      | [] => (s, UIllegal)
      end
  end.
Fixpoint urun (s : ust) (os : list uop) : ust * list (uop * uout) :=
  match os with
  | [] => (s, [])
  | o :: os' => let '(s1, a) := ustep s o in
                let '(s2, l) := urun s1 os' in (s2, (o, a) :: l)
  end.
