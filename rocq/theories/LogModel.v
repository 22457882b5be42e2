(** Model of an actor's debug log and of what writes to it: Actor.log, get_log
    (actor.py:1042-1070), _log_caller (actor.py:598-617), get_caller_info
    (utils.py:109-134), the knowledge methods (actor.py:567-713, 1152-1202), the task queue methods
    (actor.py:727-814), and the Task methods that pass them on (task.py:193-348).

    Knowledge itself is that of KnowledgeModel, the queues are those of NetModel.
    A message is kept in its parts and not as text. *)
From Coq Require Import String.
From Verif Require Import Common StateModel KnowledgeModel NetModel UnitsModel.
Open Scope string_scope.
Open Scope list_scope.

(** A frame of python's call stack: co_name and co_qualname. *)
Record frame := mkFr { f_name : string; f_qual : string }.

(** utils.py:109-134; the stack starts with the frame of get_caller_info itself. *)
Definition get_caller_info (stack : list frame) (caller_level : nat) : string :=
  match nth_error stack (S caller_level) with
  | None => "Unknown caller"
  | Some f => if String.eqb (f_name f) "task" then
                if String.eqb (f_qual f) "" then f_name f else f_qual f
              else f_name f
  end.

Section Log.
Variable V : Type.

Inductive lmsg :=
| MSet (n : key) (v : kval V) (by_ : string)      (* method 'set_knowledge 'n=v'' called by 'by' *)
| MClear (n : key) (by_ : string)
| MSetQueue (by_ : string)
| MClearQueue (by_ : string)
| MBegin (t : string)                              (* begin_next_task: Starting t task *)
| MSay (text : string).                            (* Actor.log(text) *)
Record entry := mkEn { e_time : Q; e_stamp : option pretty; e_msg : lmsg }.

(** debug_log, debug_log_time of the actor; debug_log_time, time_unit and
    daily_time_count of the stage. *)
Record lconf := mkLc { c_on : bool; c_time : option bool; c_stage : option bool;
                       c_unit : option string; c_daily : option Q }.
Record lst := mkLs { l_now : Q; l_kn : kst V; l_net : ast; l_log : list entry }.

Definition with_log (s : lst) (l : list entry) : lst := mkLs (l_now s) (l_kn s) (l_net s) l.
Definition with_know (s : lst) (k : kst V) : lst := mkLs (l_now s) k (l_net s) (l_log s).
Definition with_net (s : lst) (a : ast) : lst := mkLs (l_now s) (l_kn s) a (l_log s).

(** Actor.log with a message, actor.py:1055-1062; [None]: pretty_now raised. *)
Definition log (c : lconf) (m : lmsg) (s : lst) : option lst :=
  if c_on c then
    let do_time := match c_time c with
                   | Some b => b
                   | None => match c_stage c with Some b => b | None => true end
                   end in
    if do_time then
      match pretty_now (l_now s) (c_unit c) (c_daily c) with
      | PFails => None
      | ts => Some (with_log s (l_log s ++ [mkEn (l_now s) (Some ts) m]))
      end
    else Some (with_log s (l_log s ++ [mkEn (l_now s) None m]))
  else Some s.

(** _log_caller, actor.py:613-617, called by a method of name [meth] whose
    callers are [stack]; the caller_level of all calls is the default, 1. *)
Definition who (meth : string) (stack : list frame) (caller : option string) : string :=
  match caller with
  | None => get_caller_info (mkFr "get_caller_info" "get_caller_info" ::
                             mkFr "_log_caller" "Actor._log_caller" ::
                             mkFr meth ("Actor." ++ meth)%string :: stack) (1 + 1)
  | Some n => n
  end.

Inductive done := Fine | Refused | Broken.  (* returned; SimulationError; pretty_now raised *)

(** set_knowledge and clear_knowledge, actor.py:637-645, 658-662 *)
Definition l_set (c : lconf) (stack : list frame) (caller : option string)
    (s : lst) (n : key) (v : kval V) (ow : bool) : lst * done :=
  match log c (MSet n v (who "set_knowledge" stack caller)) s with
  | None => (s, Broken)
  | Some s1 => let '(d, ok) := set_know (n_dict (l_kn s1)) n v ow in
               (with_know s1 (with_dict (l_kn s1) d), if ok then Fine else Refused)
  end.
Definition l_clear (c : lconf) (stack : list frame) (caller : option string)
    (s : lst) (n : key) : lst * done :=
  match log c (MClear n (who "clear_knowledge" stack caller)) s with
  | None => (s, Broken)
  | Some s1 => let '(d, ok) := clear_know (n_dict (l_kn s1)) n in
               (with_know s1 (with_dict (l_kn s1) d), if ok then Fine else Refused)
  end.
(** get_and_clear_knowledge, actor.py:594-596; [None] in place of a value: absent, not raised *)
Definition l_take (c : lconf) (stack : list frame) (caller : option string)
    (s : lst) (n : key) : lst * option (option (kval V)) * done :=
  match get_know (n_dict (l_kn s)) n true with
  | None => (s, None, Refused)
  | Some r => let '(s1, o) := l_clear c (mkFr "get_and_clear_knowledge" "Actor.get_and_clear_knowledge" :: stack)
                                       caller s n in
              (s1, Some r, o)
  end.

(** The loops over several names, actor.py:675-676, 686-687, 713 and
    task.py:301-302, 311-312, 348: [one] is what is done for each name. *)
Fixpoint each {X} (one : lst -> X -> lst * done) (s : lst) (l : list X) : lst * done :=
  match l with
  | [] => (s, Fine)
  | x :: l' => let '(s1, o) := one s x in
               match o with Fine => each one s1 l' | _ => (s1, o) end
  end.
Fixpoint each_taken (one : lst -> key -> lst * option (option (kval V)) * done) (s : lst) (l : list key)
    (acc : list (key * option (kval V))) : lst * list (key * option (kval V)) * done :=
  match l with
  | [] => (s, acc, Fine)
  | n :: l' => let '(s1, r, o) := one s n in
               match o, r with
               | Fine, Some x => each_taken one s1 l' (kset n x acc)
               | Fine, None => (s1, acc, Refused)       (* cannot happen: [l_take] says Fine with a value *)
               | _, _ => (s1, acc, o)
               end
  end.

(** ** What a call returns or raises *)
Inductive lout :=
| LKn (r : nout V)                       (* a knowledge method *)
| LQu (r : qout)                         (* a queue method *)
| LNone                                  (* log(msg) *)
| LRead (l : list entry)                 (* log() or get_log() *)
| LBroken                                (* the ZeroDivisionError of pretty_now *)
| LAssert.                               (* AssertionError: the task is in no network *)

Definition kout (o : done) : lout := match o with Fine => LKn NOk | Refused => LKn NSimError | Broken => LBroken end.
Definition kmap (m : list (key * option (kval V))) (o : done) : lout :=
  match o with Fine => LKn (NMap m) | Refused => LKn NSimError | Broken => LBroken end.
Definition kval_out (r : option (option (kval V))) (o : done) : lout :=
  match o, r with
  | Fine, Some (Some v) => LKn (NValue v)
  | Fine, _ => LKn NAbsent
  | Refused, _ => LKn NSimError
  | Broken, _ => LBroken
  end.

(** The knowledge methods of Actor called by a function whose frames are [stack]. *)
Definition actor_know (c : lconf) (stack : list frame) (caller : option string) (s : lst) (o : nop V) : lst * lout :=
  match o with
  | NGet _ _ | NGetBulk _ _ | NFire _ _ | NReset _ | NProcessed _ =>   (* no log: actor.py:577-579, 699 *)
      let '(k, r) := nstep (l_kn s) o in (with_know s k, LKn r)
  | NSet n v ow => let '(s1, d) := l_set c stack caller s n v ow in (s1, kout d)
  | NClear n => let '(s1, d) := l_clear c stack caller s n in (s1, kout d)
  | NTake n => let '(s1, r, d) := l_take c stack caller s n in (s1, kval_out r d)
  | NSetBulk l ow =>                                  (* actor.py:664-676 *)
      let up := mkFr "set_bulk_knowledge" "Actor.set_bulk_knowledge" :: stack in
      let '(s1, d) := each (fun s x => l_set c up caller s (fst x) (snd x) ow) s l in (s1, kout d)
  | NClearBulk l =>                                   (* actor.py:678-687 *)
      let up := mkFr "clear_bulk_knowledge" "Actor.clear_bulk_knowledge" :: stack in
      let '(s1, d) := each (fun s n => l_clear c up caller s n) s l in (s1, kout d)
  | NTakeBulk l =>                                    (* actor.py:701-713 *)
      let up := mkFr "get_and_clear_bulk_knowledge" "Actor.get_and_clear_bulk_knowledge" :: stack in
      let '(s1, m, d) := each_taken (fun s n => l_take c up caller s n) s l [] in (s1, kmap m d)
  | NCreateEvent n =>                                 (* actor.py:1181-1185 *)
      let up := mkFr "create_knowledge_event" "Actor.create_knowledge_event" :: stack in
      let e := List.length (n_events (l_kn s)) in
      let s0 := with_know s (mkKn (n_dict (l_kn s)) (n_events (l_kn s) ++ [knew]) (n_rehearsing (l_kn s))) in
      let '(s1, d) := l_set c up None s0 n (KEvent e) (n_rehearsing (l_kn s)) in
      (s1, match d with Fine => LKn (NEvent e) | Refused => LKn NSimError | Broken => LBroken end)
  | NSucceed n p =>                                   (* actor.py:1196-1202 *)
      match kget n (n_dict (l_kn s)) with
      | Some (KEvent e) =>
          let up := mkFr "succeed_knowledge_event" "Actor.succeed_knowledge_event" :: stack in
          let '(s1, d) := l_clear c up (Some "actor.succeed_knowledge_event") s n in
          match d with
          | Fine => let '(evs, r) := fire (n_events (l_kn s1)) e p in
                    (with_know s1 (mkKn (n_dict (l_kn s1)) evs (n_rehearsing (l_kn s1))), LKn r)
          | _ => (s1, kout d)
          end
      | _ => (s, LKn NSimError)
      end
  end.

(** The same through a Task of class [cls], task.py:232-348.  There is no such
    method for the last ones: the task calls the actor itself. *)
Definition task_set (c : lconf) (stack : list frame) (cls : string) (s : lst) (n : key) (v : kval V) (ow : bool) :=
  l_set c (mkFr "set_actor_knowledge" "Task.set_actor_knowledge" :: stack) (Some cls) s n v ow.  (* 251-252 *)
Definition task_clear (c : lconf) (stack : list frame) (cls : string) (s : lst) (n : key) :=
  l_clear c (mkFr "clear_actor_knowledge" "Task.clear_actor_knowledge" :: stack) (Some cls) s n. (* 263-264 *)
Definition task_take (c : lconf) (stack : list frame) (cls : string) (s : lst) (n : key) :=
  l_take c (mkFr "get_and_clear_actor_knowledge" "Task.get_and_clear_actor_knowledge" :: stack) (Some cls) s n. (* 293-294 *)
(** [caller]: the argument of get_and_clear_actor_bulk_knowledge (task.py:334-348), which it does not use. *)
Definition task_know (c : lconf) (stack : list frame) (cls : string) (caller : option string)
    (s : lst) (o : nop V) : lst * lout :=
  match o with
  | NGet _ _ | NGetBulk _ _ => actor_know c stack None s o          (* task.py:266-280, 319-332 *)
  | NSet n v ow => let '(s1, d) := task_set c stack cls s n v ow in (s1, kout d)
  | NClear n => let '(s1, d) := task_clear c stack cls s n in (s1, kout d)
  | NTake n => let '(s1, r, d) := task_take c stack cls s n in (s1, kval_out r d)
  | NSetBulk l ow => let '(s1, d) := each (fun s x => task_set c stack cls s (fst x) (snd x) ow) s l in (s1, kout d)
  | NClearBulk l => let '(s1, d) := each (fun s n => task_clear c stack cls s n) s l in (s1, kout d)
  | NTakeBulk l => let '(s1, m, d) := each_taken (fun s n => task_take c stack cls s n) s l [] in (s1, kmap m d)
  | NCreateEvent _ | NSucceed _ _ | NFire _ _ | NReset _ | NProcessed _ => actor_know c stack None s o
  end.

(** ** Task queues: actor.py:727-788, 797-814 *)
Inductive lqop := QuClear | QuSet (l : list string) | QuGet | QuNext.

Definition l_set_queue (c : lconf) (stack : list frame) (s : lst) (n : string) (l : list string) : lst * lout :=
  match log c (MSetQueue (who "set_task_queue" stack None)) s with
  | None => (s, LBroken)
  | Some s1 => let '(a, r) := set_queue (l_net s1) n l in (with_net s1 a, LQu r)
  end.
Definition actor_queue (c : lconf) (stack : list frame) (s : lst) (n : string) (o : lqop) : lst * lout :=
  match o with
  | QuClear => match log c (MClearQueue (who "clear_task_queue" stack None)) s with
               | None => (s, LBroken)
               | Some s1 => (with_net s1 (with_queue (l_net s1) n []), LQu QOk)
               end
  | QuSet l => l_set_queue c stack s n l
  | QuGet => (s, match sget n (a_queues (l_net s)) with Some q => LQu (QList q) | None => LQu QKeyErr end)
  | QuNext => (s, match get_next (l_net s) n with Some h => LQu (QName h) | None => LQu QKeyErr end)
  end.
(** task.py:193-230; [net]: _network_name *)
Definition qname (o : lqop) : string :=
  match o with
  | QuClear => "clear_actor_task_queue" | QuSet _ => "set_actor_task_queue"
  | QuGet => "get_actor_task_queue" | QuNext => "get_actor_next_task"
  end.
Definition task_queue (c : lconf) (stack : list frame) (s : lst) (net : option string) (o : lqop) : lst * lout :=
  match net with
  | None => (s, LAssert)
  | Some n => actor_queue c (mkFr (qname o) ("Task." ++ qname o)%string :: stack) s n o
  end.
(** _begin_next_task, actor.py:806-814 *)
Definition l_begin (c : lconf) (stack : list frame) (s : lst) (n t : string) : lst * lout :=
  let go (s : lst) : lst * lout :=
    match log c (MBegin t) s with
    | None => (s, LBroken)
    | Some s1 => match sget n (a_queues (l_net s1)) with
                 | Some (_ :: q) => (with_net s1 (with_queue (l_net s1) n q), LQu QOk)
                 | Some [] => (s1, LQu QIndexErr)
                 | None => (s1, LQu QKeyErr)
                 end
    end in
  match sget n (a_queues (l_net s)) with
  | Some (x :: q) => if String.eqb x t then go s else (s, LQu QSimErr)
  | _ =>
      let '(s1, r) := l_set_queue c (mkFr "_begin_next_task" "Actor._begin_next_task" :: stack) s n [t] in
      match r with
      | LQu QOk => go s1
      | _ => (s1, r)
      end
  end.

(** ** What a program does with one actor *)
Inductive lop :=
| OActor (stack : list frame) (caller : option string) (o : nop V)
| OTask (stack : list frame) (cls : string) (caller : option string) (o : nop V)
| OQueue (stack : list frame) (n : string) (o : lqop)
| OTaskQueue (stack : list frame) (net : option string) (o : lqop)
| OBegin (stack : list frame) (n t : string)
| OSay (text : string)
| ORead
| OWait (dt : Q).                                     (* time passes *)

Definition lstep (c : lconf) (s : lst) (o : lop) : lst * lout :=
  match o with
  | OActor st caller o => actor_know c st caller s o
  | OTask st cls caller o => task_know c st cls caller s o
  | OQueue st n o => actor_queue c st s n o
  | OTaskQueue st net o => task_queue c st s net o
  | OBegin st n t => l_begin c st s n t
  | OSay m => match log c (MSay m) s with Some s1 => (s1, LNone) | None => (s, LBroken) end
  | ORead => (s, LRead (l_log s))
  | OWait dt => (mkLs (l_now s + dt) (l_kn s) (l_net s) (l_log s), LNone)
  end.
Fixpoint lrun (c : lconf) (s : lst) (os : list lop) : lst * list lout :=
  match os with
  | [] => (s, [])
  | o :: os' => let '(s1, r) := lstep c s o in
                let '(s2, rs) := lrun c s1 os' in (s2, r :: rs)
  end.
End Log.

Arguments MSet {V}. Arguments MClear {V}. Arguments MSetQueue {V}. Arguments MClearQueue {V}.
Arguments MBegin {V}. Arguments MSay {V}. Arguments mkEn {V}. Arguments e_time {V}. Arguments e_stamp {V}. Arguments e_msg {V}.
Arguments mkLs {V}. Arguments l_now {V}. Arguments l_kn {V}. Arguments l_net {V}. Arguments l_log {V}.
Arguments with_log {V}. Arguments with_know {V}. Arguments with_net {V}. Arguments log {V}.
Arguments l_set {V}. Arguments l_clear {V}. Arguments l_take {V}. Arguments each {V X}. Arguments each_taken {V}.
Arguments LKn {V}. Arguments LQu {V}. Arguments LNone {V}. Arguments LRead {V}. Arguments LBroken {V}. Arguments LAssert {V}.
Arguments kout {V}. Arguments kmap {V}. Arguments kval_out {V}. Arguments actor_know {V}.
Arguments task_set {V}. Arguments task_clear {V}. Arguments task_take {V}. Arguments task_know {V}.
Arguments l_set_queue {V}. Arguments actor_queue {V}. Arguments task_queue {V}. Arguments l_begin {V}.
Arguments OActor {V}. Arguments OTask {V}. Arguments OQueue {V}. Arguments OTaskQueue {V}. Arguments OBegin {V}.
Arguments OSay {V}. Arguments ORead {V}. Arguments OWait {V}. Arguments lstep {V}. Arguments lrun {V}.
