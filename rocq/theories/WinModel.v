(** Model of WindowedGet (routines.py:89-178) run by a task, over the store of
    [StoreModel].

    Other processes act on the store with [WStore]; the routine itself moves with
    [WStart], [WResume] (its Any event is processed) and [WNext] (its put is
    processed); [WTimeout] is the processing of the Timeout of its Wait;
    [WInterrupt] an interrupt of the task that is not ignored.

    The order in which simpy processes events of one instant is left open: the
    Any may be processed anywhere between its triggering and the next instant.
    That allows every order simpy can produce. *)
From Verif Require Import Common StoreModel.

Section Win.
Variable A : Type.
Variable eqb : A -> A -> bool.
Variable truthy : A -> bool.
Variable item_func : list A -> Z.
(** get_args/get_kwargs, timeout (in stage units), reset_window *)
Variable req : greq A.
Variable timeout : Q.
Variable reset : bool.

Inductive wphase :=
| PStart
| PWait (r : nat)             (* yielding Any(Get r[, Wait]) *)
| PDone                       (* returned self.result *)
| PBack (p : option nat)      (* cancel(): waiting for put p, or about to put the next *)
| PFinished                   (* cancel() is exhausted *)
| PBroken.                    (* the interrupt raised; cancel() never ran *)
Record wst := mkW {
  w_s : st A;
  w_phase : wphase;
  w_result : list A;          (* self.result *)
  w_got : option A;           (* the current Get is processed, with this item *)
  w_fired : bool;             (* the Any is triggered *)
  w_deadline : option Q;      (* when the Wait's Timeout is due *)
  w_over : bool;              (* it is processed *)
  w_gets : list nat;          (* the routine's requests, in order *)
  w_puts : list nat }.
Inductive wop := WStart | WStore (o : op A) | WTimeout | WResume | WInterrupt | WNext.
Inductive wout := WOk | WGot (x : A) (t : Q) | WReturned (l : list A) (t : Q) | WRaised | WIllegal.

Definition winit (k : kind) (c : option nat) (t0 : Q) : wst :=
  mkW (init A item_func k c t0) PStart [] None false None false [] [].

(** What the routine notices of what happens in the store. *)
Definition notice (w : wst) (e : happening A) : wst :=
  match w_phase w, e with
  | PWait r, HDelivered n x =>
      if Nat.eqb n r then mkW (w_s w) (w_phase w) (w_result w) (Some x) true (w_deadline w) (w_over w) (w_gets w) (w_puts w)
      else w
  | PBack (Some p), HPutDone n _ =>
      if Nat.eqb n p then mkW (w_s w) (PBack None) (w_result w) (w_got w) (w_fired w) (w_deadline w) (w_over w) (w_gets w) (w_puts w)
      else w
  | _, _ => w
  end.
Definition set_store (w : wst) (s : st A) : wst :=
  mkW s (w_phase w) (w_result w) (w_got w) (w_fired w) (w_deadline w) (w_over w) (w_gets w) (w_puts w).
Definition mine (w : wst) (r : nat) : bool := existsb (Nat.eqb r) (w_gets w) || existsb (Nat.eqb r) (w_puts w).
(** simpy moves time only when nothing of this instant is left, and not past a
    Timeout. *)
Definition may_pass (w : wst) (t : Q) : bool :=
  negb (w_fired w) &&
  match w_phase w, w_deadline w with
  | PWait _, Some d => w_over w || Qleb t d
  | PBack None, _ => false
  | _, _ => true
  end.

(** run(): lines 135-146.  A new Get and, once there was a first item, the Wait
    (a new one if reset_window). *)
Definition next_get (w : wst) (result : list A) (first : bool) : wst * list (happening A) :=
  let '(s, h) := op_get A eqb truthy item_func (w_s w) req in
  let deadline := if first then None
                  else match w_deadline w with
                       | None => Some (s_now (w_s w) + timeout)
                       | Some d => if reset then Some (s_now (w_s w) + timeout) else Some d
                       end in
  let over := if first || reset then false else w_over w in
  (mkW s (PWait (s_next (w_s w))) result None over deadline over (w_gets w ++ [s_next (w_s w)]) (w_puts w), h).

Definition wstep (w : wst) (o : wop) : wst * list (happening A) * wout :=
  match o with
  | WStart =>
      match w_phase w with
      | PStart => let '(w', h) := next_get w [] true in (w', h, WOk)
      | _ => (w, [], WIllegal)
      end
  | WStore o =>
      let allowed := match o with
                     | OpCancel r => negb (mine w r)
                     | OpTime t => may_pass w t
                     | _ => true
                     end in
      if allowed then
        let '(s, h) := step A eqb truthy item_func (w_s w) o in
        (fold_left notice h (set_store w s), h, WOk)
      else (w, [], WIllegal)
  | WTimeout =>
      match w_phase w, w_deadline w with
      | PWait _, Some d =>
          if negb (w_over w) && Qeqb (s_now (w_s w)) d
          then (mkW (w_s w) (w_phase w) (w_result w) (w_got w) true (w_deadline w) true (w_gets w) (w_puts w), [], WOk)
          else (w, [], WIllegal)
      | _, _ => (w, [], WIllegal)
      end
  | WResume =>                                            (* 148-157 *)
      match w_phase w with
      | PWait r =>
          if w_fired w then
            match w_got w with
            | Some x => let '(w', h) := next_get w (w_result w ++ [x]) false in (w', h, WGot x (s_now (w_s w)))
            | None => let '(s, h) := op_cancel A (w_s w) r in
                      (mkW s PDone (w_result w) None false (w_deadline w) (w_over w) (w_gets w) (w_puts w), h,
                       WReturned (w_result w) (s_now (w_s w)))
            end
          else (w, [], WIllegal)
      | _ => (w, [], WIllegal)
      end
  | WInterrupt =>
      (* Task._handle_interruption cancels the Any: its simpy event fails if it is
         not triggered, which cancels the Get, else RuntimeError (events.py:425-437) *)
      match w_phase w with
      | PWait r =>
          if w_fired w then (mkW (w_s w) PBroken (w_result w) (w_got w) false (w_deadline w) (w_over w) (w_gets w) (w_puts w), [], WRaised)
          else let '(s, h) := op_cancel A (w_s w) r in
               (mkW s (PBack None) (w_result w) None false (w_deadline w) (w_over w) (w_gets w) (w_puts w), h, WOk)
      | _ => (w, [], WIllegal)
      end
  | WNext =>                                              (* cancel(): 159-162 *)
      match w_phase w with
      | PBack None =>
          match w_result w with
          | [] => (mkW (w_s w) PFinished [] (w_got w) (w_fired w) (w_deadline w) (w_over w) (w_gets w) (w_puts w), [], WOk)
          | x :: l => let '(s, h) := op_put A item_func (w_s w) x in
                      (mkW s (PBack (Some (s_next (w_s w)))) l (w_got w) (w_fired w) (w_deadline w) (w_over w) (w_gets w)
                           (w_puts w ++ [s_next (w_s w)]), h, WOk)
          end
      | _ => (w, [], WIllegal)
      end
  end.
Fixpoint wrun (w : wst) (os : list wop) : wst * list (happening A) * list (wop * wout) :=
  match os with
  | [] => (w, [], [])
  | o :: os' => let '(w1, h1, a) := wstep w o in
                let '(w2, h2, l) := wrun w1 os' in (w2, h1 ++ h2, (o, a) :: l)
  end.
End Win.

Arguments mkW {A}. Arguments w_s {A}. Arguments w_phase {A}. Arguments w_result {A}. Arguments w_got {A}.
Arguments w_fired {A}. Arguments w_deadline {A}. Arguments w_over {A}. Arguments w_gets {A}. Arguments w_puts {A}.
Arguments WStart {A}. Arguments WStore {A}. Arguments WTimeout {A}. Arguments WResume {A}. Arguments WInterrupt {A}. Arguments WNext {A}.
Arguments WOk {A}. Arguments WGot {A}. Arguments WReturned {A}. Arguments WRaised {A}. Arguments WIllegal {A}.
