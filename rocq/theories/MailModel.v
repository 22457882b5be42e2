(** Model of messages and of what becomes of them: communications/comms.py (Message,
    clean_message, make_put, run, _attempt and PointToPointCommsManager._do_transmit) and
    communications/processes.py.

    Unlike CommsModel, which leaves the order of the events of an instant open, this model
    has simpy's queue: events are processed in the order of their times, urgent ones
    (Initialize) before others, otherwise in the order in which they were scheduled.  Events
    of other processes are operations which may come at any time.

    Actors, texts and dictionaries are numbers.  Every destination has a store, of unlimited
    capacity and in order (a simpy Store); CommsModel has the choice of the store.  run() is
    called once, and generate_comms_wait's process is started at most once per store.  Users
    do not assign to the fields of messages. *)
From Coq Require Import Qround.
From Verif Require Import Common.
From Verif Require CommsModel.

(** ** Messages *)
(** A dictionary: {}, one of the user's, {"message": x} *)
Inductive data := DEmpty | DUser (d : nat) | DMessage (x : nat).
(** MessageContent, comms.py:25-30 *)
Record content := mkK { k_data : data; k_text : option nat }.
(** Message, comms.py:33-52; the place in the heap stands for uid *)
Record msg := mkG {
  g_from : nat; g_content : content; g_to : nat; g_header : option nat;
  g_sent : option Q; g_received : option Q; g_mode : option nat; g_created : Q }.
(** What can be given to make_put: text, a dictionary, a MessageContent, a Message *)
Inductive payload := PText (s : nat) | PDict (d : nat) | PContent (c : content) | PMsg (id : nat).
(** make_put, comms.py:228-245: the heap and the message in the Put *)
Definition make_put (mode : option nat) (now : Q) (heap : list msg) (p : payload) (source destination : nat) : list msg * nat :=
  let new c := (heap ++ [mkG source c destination None None None mode now], length heap) in
  match p with
  | PMsg id => (heap, id)
  | PContent c => new c
  | PDict d => new (mkK (DUser d) None)
  | PText s => new (mkK DEmpty (Some s))
  end.
(** What is in a store: a message ([k] numbers the puts) or what others put there *)
Inductive item := IMsg (k id : nat) | IRaw (x : nat).
(** clean_message, comms.py:142-156 *)
Definition clean (heap : list msg) (i : item) : content :=
  match i with
  | IMsg _ id => match nth_error heap id with Some m => g_content m | None => mkK DEmpty None end
  | IRaw x => mkK (DMessage x) None
  end.
(** The dataclass's ==, comms.py:33-45, compares the fields; the hash is the uid's,
    comms.py:51-52.  Equal dictionaries are the same here. *)
Definition oeqb {A} (eqb : A -> A -> bool) (a b : option A) : bool :=
  match a, b with Some x, Some y => eqb x y | None, None => true | _, _ => false end.
Definition data_eqb (a b : data) : bool :=
  match a, b with DEmpty, DEmpty => true | DUser x, DUser y | DMessage x, DMessage y => Nat.eqb x y | _, _ => false end.
Definition content_eqb (a b : content) : bool := data_eqb (k_data a) (k_data b) && oeqb Nat.eqb (k_text a) (k_text b).
Definition msg_eqb (a b : msg) : bool :=
  Nat.eqb (g_from a) (g_from b) && content_eqb (g_content a) (g_content b) && Nat.eqb (g_to a) (g_to b) &&
  oeqb Nat.eqb (g_header a) (g_header b) && oeqb Qeqb (g_sent a) (g_sent b) && oeqb Qeqb (g_received a) (g_received b) &&
  oeqb Nat.eqb (g_mode a) (g_mode b).

(** ** The simulation *)
Record cfg := mkF { f_max : Q; f_rate : Q; f_send : Q; f_mode : option nat }.
Inductive ev :=
| EStart                          (* Initialize of run() *)
| EGot (k id : nat)               (* run()'s get from the incoming store *)
| EInit (k id : nat)              (* Initialize of _do_transmit *)
| ERetry (k id : nat) (taken : Z) (* comms.py:316 *)
| ESend (k id : nat)              (* comms.py:366 *)
| EListen (a : nat)               (* Initialize of comms_wait_proc on the store of a *)
| EHeard (a : nat) (i : item).    (* its get *)
(** An event in simpy's queue: its time, and whether it is urgent *)
Record entry := mkE { e_time : Q; e_urgent : bool; e_ev : ev }.
Definition before (x y : entry) : bool :=
  Qltb (e_time x) (e_time y) || (Qeqb (e_time x) (e_time y) && e_urgent x && negb (e_urgent y)).
(** The next event, simpy's step(): the first of the foremost *)
Fixpoint pop (l : list entry) : option (entry * list entry) :=
  match l with
  | [] => None
  | x :: l' => match pop l' with
               | Some (y, r) => if before y x then Some (y, x :: r) else Some (x, l')
               | None => Some (x, [])
               end
  end.
(** Whether a process waits for a get of a store, has one that was given something, or has
    not been made *)
Inductive loop := LOff | LWait | LBusy.
Record box := mkX { x_items : list item; x_loop : loop }.
Record st := mkT {
  t_now : Q; t_conf : CommsModel.conf; t_heap : list msg;
  t_in : list (nat * nat); t_puts : nat; t_loop : loop;
  t_queue : list entry; t_box : nat -> box }.
(** What can be seen *)
Inductive out :=
| AMade (id source destination : nat) (c : content) (mode : option nat) (t : Q)
| APut (k id source destination : nat) (t : Q)
| AStart (t : Q)
| ADrop (k : nat)
| ADeliver (k id source destination : nat) (t : Q)
| ARaw (a x : nat)
| AHeard (a : nat) (i : item) (c : content) (t : Q).

Definition schedule (s : st) (t : Q) (urgent : bool) (e : ev) : st :=
  mkT (t_now s) (t_conf s) (t_heap s) (t_in s) (t_puts s) (t_loop s) (t_queue s ++ [mkE t urgent e]) (t_box s).
Definition with_box (s : st) (a : nat) (b : box) : st :=
  mkT (t_now s) (t_conf s) (t_heap s) (t_in s) (t_puts s) (t_loop s) (t_queue s)
      (fun a' => if Nat.eqb a' a then b else t_box s a').
Definition with_in (s : st) (l : list (nat * nat)) (lp : loop) : st :=
  mkT (t_now s) (t_conf s) (t_heap s) l (t_puts s) lp (t_queue s) (t_box s).
(** simpy's Store.get by the listener on the store of [a] *)
Definition box_get (s : st) (a : nat) : st :=
  match x_items (t_box s a) with
  | [] => with_box s a (mkX [] LWait)
  | i :: r => schedule (with_box s a (mkX r LBusy)) (t_now s) false (EHeard a i)
  end.
(** simpy's Store.put: append, then serve a waiting get *)
Definition box_put (s : st) (a : nat) (i : item) : st :=
  let b := t_box s a in
  let s1 := with_box s a (mkX (x_items b ++ [i]) (x_loop b)) in
  match x_loop b with LWait => box_get s1 a | _ => s1 end.
(** The same for run() and the incoming store, comms.py:262 *)
Definition in_get (s : st) : st :=
  match t_in s with
  | [] => with_in s [] LWait
  | (k, id) :: r => schedule (with_in s r LBusy) (t_now s) false (EGot k id)
  end.
Definition in_put (s : st) (k id : nat) : st :=
  let s1 := with_in s (t_in s ++ [(k, id)]) (t_loop s) in
  match t_loop s with LWait => in_get s1 | _ => s1 end.
Definition sent_at (heap : list msg) (id : nat) (t : Q) : list msg :=
  match nth_error heap id with
  | Some m => firstn id heap ++ mkG (g_from m) (g_content m) (g_to m) (g_header m) (Some t) (g_received m) (g_mode m) (g_created m) :: skipn (S id) heap
  | None => heap
  end.
(** comms.py:368-373 *)
Definition deliver (s : st) (k id : nat) (m : msg) : st * list out :=
  let s1 := mkT (t_now s) (t_conf s) (sent_at (t_heap s) id (t_now s)) (t_in s) (t_puts s) (t_loop s) (t_queue s) (t_box s) in
  (box_put s1 (g_to m) (IMsg k id), [ADeliver k id (g_from m) (g_to m) (t_now s)]).
(** comms.py:308 *)
Definition tries (f : cfg) : Z := Qceiling (f_max f / f_rate f).
(** _attempt from its test on, comms.py:303-317, and what follows, comms.py:361-373 *)
Definition attempt (f : cfg) (s : st) (k id : nat) (taken : Z) : st * list out :=
  match nth_error (t_heap s) id with
  | None => (s, [])
  | Some m =>
      if CommsModel.blocked (t_conf s) (g_from m) (g_to m) then
        if (taken =? tries f)%Z then (s, [ADrop k])
        else (schedule s (t_now s + f_rate f) false (ERetry k id (taken + 1)), [])
      else if Qltb 0 (f_send f) then (schedule s (t_now s + f_send f) false (ESend k id), [])
      else deliver s k id m
  end.
(** Processing one event *)
Definition process (f : cfg) (s : st) (e : ev) : st * list out :=
  match e with
  | EStart => (in_get s, [AStart (t_now s)])
  | EGot k id => (in_get (schedule s (t_now s) true (EInit k id)), [])   (* comms.py:261-264 *)
  | EInit k id => attempt f s k id 0
  | ERetry k id taken => attempt f s k id taken
  | ESend k id => match nth_error (t_heap s) id with Some m => deliver s k id m | None => (s, []) end
  | EListen a => (box_get s a, [])                                        (* processes.py:37-40 *)
  | EHeard a i => (box_get s a, [AHeard a i (clean (t_heap s) i) (t_now s)])
  end.

Inductive op :=
| UStep                                       (* the next event of the queue *)
| UTime (t : Q)                               (* an event of another process *)
| UConf (c : CommsModel.conf)
| UMake (p : payload) (source destination : nat)
| UPut (id : nat)                             (* the Put of a message is made an event *)
| URun
| UListen (a : nat)
| URaw (a x : nat).                           (* somebody puts something into a's store *)
Definition lets_pass (t : Q) (e : entry) : bool := Qleb t (e_time e).
Definition step (f : cfg) (s : st) (o : op) : st * list out :=
  match o with
  | UStep =>
      match pop (t_queue s) with
      | Some (x, r) => process f (mkT (e_time x) (t_conf s) (t_heap s) (t_in s) (t_puts s) (t_loop s) r (t_box s)) (e_ev x)
      | None => (s, [])
      end
  | UTime t =>
      if Qleb (t_now s) t && forallb (lets_pass t) (t_queue s)
      then (mkT t (t_conf s) (t_heap s) (t_in s) (t_puts s) (t_loop s) (t_queue s) (t_box s), [])
      else (s, [])
  | UConf c => (mkT (t_now s) c (t_heap s) (t_in s) (t_puts s) (t_loop s) (t_queue s) (t_box s), [])
  | UMake p source destination =>
      let '(heap, id) := make_put (f_mode f) (t_now s) (t_heap s) p source destination in
      (mkT (t_now s) (t_conf s) heap (t_in s) (t_puts s) (t_loop s) (t_queue s) (t_box s),
       match nth_error (t_heap s) id, nth_error heap id with
       | None, Some m => [AMade id (g_from m) (g_to m) (g_content m) (g_mode m) (t_now s)]
       | _, _ => []
       end)
  | UPut id =>
      match nth_error (t_heap s) id with
      | Some m =>
          let k := t_puts s in
          (in_put (mkT (t_now s) (t_conf s) (t_heap s) (t_in s) (S k) (t_loop s) (t_queue s) (t_box s)) k id,
           [APut k id (g_from m) (g_to m) (t_now s)])
      | None => (s, [])
      end
  | URun => match t_loop s with
            | LOff => (schedule (with_in s (t_in s) LBusy) (t_now s) true EStart, [])
            | _ => (s, [])
            end
  | UListen a => match x_loop (t_box s a) with
                 | LOff => (schedule (with_box s a (mkX (x_items (t_box s a)) LBusy)) (t_now s) true (EListen a), [])
                 | _ => (s, [])
                 end
  | URaw a x => (box_put s a (IRaw x), [ARaw a x])
  end.
Definition init (c : CommsModel.conf) (t0 : Q) : st := mkT t0 c [] [] 0 LOff [] (fun _ => mkX [] LOff).
Fixpoint run (f : cfg) (s : st) (os : list op) : st * list out :=
  match os with
  | [] => (s, [])
  | o :: os' => let '(s1, l1) := step f s o in
                let '(s2, l2) := run f s1 os' in (s2, l1 ++ l2)
  end.
