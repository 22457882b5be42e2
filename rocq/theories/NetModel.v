(** Model of task networks: an actor's networks and task queues
    (actor.py:715-814, 891-923), the running loop (task_network.py:58-138) and
    the network factories (task_network.py:202-327).

    A task's body is not modelled here: the environment says when the current
    task of a loop ends ([QFinish]).  Queue operations made by a task body are
    ordinary operations between its start and its end. *)
From Verif Require Import Common.
From Coq Require Export String.
From Coq Require Import DecimalString DecimalNat.
Open Scope string_scope.
Open Scope list_scope.

(** ** Dictionaries keyed by names *)
Fixpoint sget {V} (n : string) (d : list (string * V)) : option V :=
  match d with
  | [] => None
  | (m, v) :: d' => if String.eqb m n then Some v else sget n d'
  end.
Fixpoint sset {V} (n : string) (v : V) (d : list (string * V)) : list (string * V) :=
  match d with
  | [] => [(n, v)]
  | (m, w) :: d' => if String.eqb m n then (m, v) :: d' else (m, w) :: sset n v d'
  end.
Definition sdel {V} (n : string) (d : list (string * V)) : list (string * V) :=
  filter (fun p => negb (String.eqb (fst p) n)) d.
Definition smem (n : string) (l : list string) : bool := existsb (String.eqb n) l.

(** ** Networks: task classes and links (task_network.py:23-56) *)
Inductive tkind := KTask | KTerminal.
Record links := mkLinks { l_default : option string; l_allowed : list string }.
Record netdef := mkNet { n_classes : list (string * tkind); n_links : list (string * links) }.

(** task_network.py:58-69; [None]: KeyError. *)
Definition is_feasible (d : netdef) (curr new : string) : option bool :=
  match sget curr (n_links d) with
  | Some l => Some (smem new (l_allowed l))
  | None => None
  end.

(** A running loop: its network, and the task it is in ([None]: it has raised). *)
Record proc := mkProc { r_net : string; r_def : netdef; r_cur : option string }.
Record ast := mkAct { a_nets : list (string * netdef);        (* _task_networks *)
                      a_queues : list (string * list string); (* _task_queue *)
                      a_procs : list proc }.

Inductive qout := QOk | QList (l : list string) | QName (n : option string) | QBool (b : bool)
                | QStarted (t : string) | QSimErr | QKeyErr | QIndexErr | QDead.

Inductive qop :=
| QAdd (n : string) (d : netdef)
| QDel (n : string)
| QClear (n : string)
| QSet (n : string) (l : list string)
| QGet (n : string)
| QNext (n : string)
| QHas (n : string)
| QSuggest (n : string)
| QLoop (n : string) (init : option string)
| QFinish (p : nat).

Definition with_queue (s : ast) (n : string) (q : list string) : ast :=
  mkAct (a_nets s) (sset n q (a_queues s)) (a_procs s).
Fixpoint upd_proc (p : nat) (r : proc) (l : list proc) : list proc :=
  match l, p with
  | [], _ => []
  | _ :: l', O => r :: l'
  | x :: l', S p' => x :: upd_proc p' r l'
  end.

(** actor.py:738-751 *)
Definition set_queue (s : ast) (n : string) (l : list string) : ast * qout :=
  match sget n (a_queues s) with
  | None => (s, QKeyErr)
  | Some (_ :: _) => (s, QSimErr)
  | Some [] => (with_queue s n l, QOk)
  end.

(** actor.py:775-788 *)
Definition get_next (s : ast) (n : string) : option (option string) :=
  match sget n (a_queues s) with
  | None => None
  | Some q => Some (hd_error q)
  end.

(** actor.py:797-814 *)
Definition begin_next (s : ast) (n t : string) : ast * qout :=
  match sget n (a_queues s) with
  | Some (x :: q) => if String.eqb x t then (with_queue s n q, QOk) else (s, QSimErr)
  | _ =>
      let '(s1, r) := set_queue s n [t] in
      match r with
      | QOk => match sget n (a_queues s1) with
               | Some (_ :: q) => (with_queue s1 n q, QOk)
               | _ => (s1, QIndexErr)
               end
      | e => (s1, e)
      end
  end.

(** The body of the loop up to the yield (task_network.py:115-135), for the task
    named [t]: the loop [r] is in position [p] of the list. *)
Definition enter (s : ast) (p : nat) (r : proc) (t : string) : ast * qout :=
  let '(s1, o) := begin_next s (r_net r) t in
  let put c := mkAct (a_nets s1) (a_queues s1) (upd_proc p (mkProc (r_net r) (r_def r) c) (a_procs s1)) in
  match o with
  | QOk => match sget t (n_classes (r_def r)) with
           | Some _ => (put (Some t), QStarted t)
           | None => (put None, QKeyErr)
           end
  | e => (put None, e)
  end.

(** task_network.py:71-92 with [clear_queue=False] *)
Definition next_task_name (s : ast) (d : netdef) (n curr : string) : option (option string) :=
  match get_next s n with
  | None => None                           (* KeyError *)
  | Some head =>
      match sget curr (n_links d) with
      | None => None                       (* KeyError *)
      | Some l => match head with
                  | Some t => Some (Some t)
                  | None => Some (l_default l)  (* [Some None]: SimulationError *)
                  end
      end
  end.

(** f"{name}_{i}" *)
Definition numbered (n : string) (i : nat) : string :=
  (n ++ "_" ++ NilEmpty.string_of_uint (Nat.to_uint i))%string.
(** actor.py:891-909; the while loop, with explicit fuel. *)
Fixpoint suggest_from (fuel : nat) (nets : list (string * netdef)) (base cand : string) (i : nat) : option string :=
  match sget cand nets with
  | None => Some cand
  | Some _ => match fuel with
              | O => None
              | S f => suggest_from f nets base (numbered base (S i)) (S i)
              end
  end.
Definition suggest (nets : list (string * netdef)) (base : string) : option string :=
  suggest_from (S (List.length nets)) nets base base 0.

Definition kill (s : ast) (p : nat) (r : proc) : ast :=
  mkAct (a_nets s) (a_queues s) (upd_proc p (mkProc (r_net r) (r_def r) None) (a_procs s)).

Definition qstep (s : ast) (o : qop) : ast * qout :=
  match o with
  | QAdd n d =>                            (* actor.py:715-725 *)
      match sget n (a_nets s) with
      | Some _ => (s, QSimErr)
      | None => (mkAct (a_nets s ++ [(n, d)]) (sset n [] (a_queues s)) (a_procs s), QOk)
      end
  | QDel n =>                              (* actor.py:911-923 *)
      match sget n (a_nets s) with
      | None => (s, QSimErr)
      | Some _ => (mkAct (sdel n (a_nets s)) (a_queues s) (a_procs s), QOk)
      end
  | QClear n => (with_queue s n [], QOk)   (* actor.py:727-736 *)
  | QSet n l => set_queue s n l
  | QGet n => match sget n (a_queues s) with Some q => (s, QList q) | None => (s, QKeyErr) end
  | QNext n => match get_next s n with Some h => (s, QName h) | None => (s, QKeyErr) end
  | QHas n => (s, QBool (match sget n (a_nets s) with Some _ => true | None => false end))
  | QSuggest n => (s, QName (suggest (a_nets s) n))
  | QLoop n init =>                        (* actor.py:816-830, task_network.py:94-135 *)
      match sget n (a_nets s) with
      | None => (s, QKeyErr)
      | Some d =>
          let p := List.length (a_procs s) in
          let s1 := mkAct (a_nets s) (a_queues s) (a_procs s ++ [mkProc n d None]) in
          match get_next s n with
          | None => (s1, QKeyErr)
          | Some head =>
              match head, init with
              | Some t, _ => enter s1 p (mkProc n d None) t
              | None, Some t => enter s1 p (mkProc n d None) t
              | None, None => (s1, QSimErr)
              end
          end
      end
  | QFinish p =>                           (* task_network.py:137-138, then the loop again *)
      match nth_error (a_procs s) p with
      | Some r =>
          match r_cur r with
          | None => (s, QDead)
          | Some t =>
              match sget t (n_classes (r_def r)) with
              | Some KTerminal => (kill s p r, QSimErr)  (* task.py:665-679: it raises *)
              | _ =>
                  match next_task_name s (r_def r) (r_net r) t with
                  | None => (kill s p r, QKeyErr)
                  | Some None => (kill s p r, QSimErr)
                  | Some (Some t') => enter s p r t'
                  end
              end
          end
      | None => (s, QDead)
      end
  end.

Fixpoint qrun (s : ast) (os : list qop) : ast :=
  match os with [] => s | o :: os' => qrun (fst (qstep s o)) os' end.
Definition act0 : ast := mkAct [] [] [].

(** ** Factories.  A task class is given by its name; [__name__] is the key. *)
(** task_network.py:226-242 *)
Definition single_looping (t : string) : netdef :=
  mkNet [(t, KTask)] [(t, mkLinks (Some t) [t])].
(** task_network.py:244-262 *)
Definition single_terminating (t : string) : netdef :=
  let e := (t ++ "_FINAL")%string in
  mkNet (sset e KTerminal [(t, KTask)]) [(t, mkLinks (Some e) [e])].
(** task_network.py:264-291: the loop over the classes, [k] the number done. *)
Fixpoint ordered (fin : option string) (first : string) (ts : list string) (acc : netdef) : netdef :=
  match ts with
  | [] => acc
  | t :: ts' =>
      let cls := sset t KTask (n_classes acc) in
      let '(nxt, cls') :=
        match ts' with
        | t' :: _ => (t', cls)
        | [] => match fin with
                | Some e => (e, sset e KTerminal cls)   (* IndexError branch, terminating *)
                | None => (first, cls)                  (* IndexError branch, loop *)
                end
        end in
      ordered fin first ts' (mkNet cls' (sset t (mkLinks (Some nxt) [nxt]) (n_links acc)))
  end.
Definition ordered_terminating (name : string) (ts : list string) : netdef :=
  ordered (Some (name ++ "_TERMINATING")%string) (hd "" ts) ts (mkNet [] []).
(** task_network.py:293-315 *)
Definition ordered_loop (ts : list string) : netdef :=
  ordered None (hd "" ts) ts (mkNet [] []).
