(** Vocabulary for task networks, in terms of what is started, queued and
    observed; nothing here mentions how the loop works. *)
From Verif Require Import Common NetModel.

Definition queue_of (s : ast) (n : string) : option (list string) := sget n (a_queues s).
Definition net_of (s : ast) (p : nat) : option string :=
  match nth_error (a_procs s) p with Some r => Some (r_net r) | None => None end.
(** The loop [p] of [s] is in task [t] of network [n] with definition [d]. *)
Definition in_task (s : ast) (p : nat) (n : string) (d : netdef) (t : string) : Prop :=
  nth_error (a_procs s) p = Some (mkProc n d (Some t)).

(** The loop an operation drives, if it drives one. *)
Definition drives (s : ast) (o : qop) : option (nat * string) :=
  match o with
  | QLoop n _ => Some (List.length (a_procs s), n)
  | QFinish p => match net_of s p with Some n => Some (p, n) | None => None end
  | _ => None
  end.

(** Names of the tasks the loop [p] starts during [os]. *)
Definition start_by (p : nat) (s : ast) (o : qop) : list string :=
  match drives s o, snd (qstep s o) with
  | Some (p', _), QStarted t => if Nat.eqb p' p then [t] else []
  | _, _ => []
  end.
Fixpoint starts (p : nat) (s : ast) (os : list qop) : list string :=
  match os with
  | [] => []
  | o :: os' => start_by p s o ++ starts p (fst (qstep s o)) os'
  end.

(** Names of the tasks of network [n] started while its queue was not empty. *)
Definition queue_start (n : string) (s : ast) (o : qop) : list string :=
  match drives s o, snd (qstep s o), queue_of s n with
  | Some (_, m), QStarted t, Some (_ :: _) => if String.eqb m n then [t] else []
  | _, _, _ => []
  end.
Fixpoint started_from_queue (n : string) (s : ast) (os : list qop) : list string :=
  match os with
  | [] => []
  | o :: os' => queue_start n s o ++ started_from_queue n (fst (qstep s o)) os'
  end.
(** Names queued for network [n] by set_task_queue. *)
Definition queued_by (n : string) (s : ast) (o : qop) : list string :=
  match o, snd (qstep s o) with
  | QSet m l, QOk => if String.eqb m n then l else []
  | _, _ => []
  end.
Fixpoint queued (n : string) (s : ast) (os : list qop) : list string :=
  match os with
  | [] => []
  | o :: os' => queued_by n s o ++ queued n (fst (qstep s o)) os'
  end.
(** No operation raised KeyError (which would end the simulation). *)
Fixpoint calm (s : ast) (os : list qop) : Prop :=
  match os with
  | [] => True
  | o :: os' => snd (qstep s o) <> QKeyErr /\ calm (fst (qstep s o)) os'
  end.

(** The operation neither clears the queue of [n] nor deletes the network. *)
Definition no_reset (n : string) (o : qop) : Prop :=
  match o with QClear m | QDel m => m <> n | _ => True end.
(** The operation is not about network [n] at all (other than reading). *)
Definition elsewhere (n : string) (o : qop) : Prop :=
  match o with
  | QAdd m _ | QDel m | QClear m | QSet m _ | QLoop m _ => m <> n
  | _ => True
  end.
Definition finishes (p : nat) (os : list qop) : nat :=
  List.length (filter (fun o => match o with QFinish p' => Nat.eqb p' p | _ => false end) os).

(** The [k] tasks after [t] when only the links decide. *)
Fixpoint default_chain (d : netdef) (t : string) (k : nat) : list string :=
  match k with
  | O => []
  | S k' =>
      match sget t (n_classes d) with
      | Some KTerminal => []                  (* never ends *)
      | _ =>
          match sget t (n_links d) with
          | Some l =>
              match l_default l with
              | Some t' => match sget t' (n_classes d) with
                           | Some _ => t' :: default_chain d t' k'
                           | None => []
                           end
              | None => []
              end
          | None => []
          end
      end
  end.

(** The infinite repetition of [ts], cut after [k]. *)
Definition cycled (ts : list string) (k : nat) : list string :=
  map (fun i => nth (Nat.modulo i (List.length ts)) ts "") (seq 0 k).
