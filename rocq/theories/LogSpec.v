(** What the debug log of an actor should hold, and what its methods do without one. *)
From Coq Require Import String.
From Verif Require Import Common StateModel KnowledgeModel KnowledgeSpec NetModel UnitsModel LogModel.
Open Scope string_scope.
Open Scope list_scope.

(** Entries carry the time of the stage in print if the actor, or else the stage, says so. *)
Definition stamps (c : lconf) : bool :=
  match c_time c, c_stage c with Some b, _ => b | None, Some b => b | None, None => true end.
(** A day of a stage does not have zero units of time. *)
Definition has_days (c : lconf) : Prop := forall q, c_daily c = Some q -> ~ q == 0.

(** The function that made the call. *)
Definition calling (stack : list frame) : string :=
  match stack with
  | [] => "Unknown caller"
  | f :: _ => if String.eqb (f_name f) "task" then
                if String.eqb (f_qual f) "" then "task" else f_qual f
              else f_name f
  end.
Definition or_else (caller : option string) (x : string) : string :=
  match caller with Some n => n | None => x end.

Section Spec.
Variable V : Type.

Definition lines (c : lconf) (now : Q) (ms : list (lmsg V)) : list (entry V) :=
  if c_on c then
    map (mkEn now (if stamps c then Some (pretty_now now (c_unit c) (c_daily c)) else None)) ms
  else [].

(** One call, as if there were no log. *)
Definition plain (k : kst V) (a : ast) (o : lop V) : kst V * ast * lout V :=
  match o with
  | OActor _ _ o | OTask _ _ _ o => let '(k', r) := nstep k o in (k', a, LKn r)
  | OQueue _ n o | OTaskQueue _ (Some n) o =>
      let '(a', r) := qstep a (match o with QuClear => QClear n | QuSet l => QSet n l | QuGet => QGet n | QuNext => QNext n end) in
      (k, a', LQu r)
  | OTaskQueue _ None _ => (k, a, LAssert)
  | OBegin _ n t => let '(a', r) := begin_next a n t in (k, a', LQu r)
  | OSay _ | OWait _ => (k, a, LNone)
  | ORead => (k, a, LRead [])
  end.

(** Names of a bulk change that would be turned down. *)
Definition taken_name (m : amap V) (l : list key) (i : nat) : Prop :=
  exists n, nth_error l i = Some n /\ (m n <> None \/ exists j, (j < i)%nat /\ nth_error l j = Some n).
Definition missing_name (m : amap V) (l : list key) (i : nat) : Prop :=
  exists n, nth_error l i = Some n /\ (m n = None \/ exists j, (j < i)%nat /\ nth_error l j = Some n).

(** The first [k] of [len]: up to and including the first bad one. *)
Definition to_first (bad : nat -> Prop) (len k : nat) : Prop :=
  (k <= len)%nat /\ (forall i, (S i < k)%nat -> ~ bad i) /\
  (k = len \/ exists i, k = S i /\ bad i).
(** The first [k] of [len]: all before the first bad one. *)
Definition before_first (bad : nat -> Prop) (len k : nat) : Prop :=
  (k <= len)%nat /\ (forall i, (i < k)%nat -> ~ bad i) /\ (k = len \/ bad k).

(** Messages of one knowledge call: [one], [bulk] and [took] are the names given for
    single changes, for changes in bulk and for taking. *)
Definition tells (k : kst V) (o : nop V) (one bulk took made : string) (ms : list (lmsg V)) : Prop :=
  match o with
  | NGet _ _ | NGetBulk _ _ | NFire _ _ | NReset _ | NProcessed _ => ms = []
  | NSet n v _ => ms = [MSet n v one]
  | NClear n => ms = [MClear n one]
  | NTake n => ms = match look k n with Some _ => [MClear n took] | None => [] end
  | NSetBulk l ow =>
      exists i, ms = map (fun x => MSet (fst x) (snd x) bulk) (firstn i l) /\
        to_first (fun j => ow = false /\ taken_name (look k) (map fst l) j) (List.length l) i
  | NClearBulk l =>
      exists i, ms = map (fun n => MClear n bulk) (firstn i l) /\
        to_first (missing_name (look k) l) (List.length l) i
  | NTakeBulk l =>
      exists i, ms = map (fun n => MClear n took) (firstn i l) /\
        before_first (missing_name (look k) l) (List.length l) i
  | NCreateEvent n => ms = [MSet n (KEvent (List.length (n_events k))) made]
  | NSucceed n _ => ms = match look k n with
                         | Some (KEvent _) => [MClear n "actor.succeed_knowledge_event"]
                         | _ => []
                         end
  end.

Definition bulk_name (o : nop V) : string :=
  match o with NSetBulk _ _ => "set_bulk_knowledge" | _ => "clear_bulk_knowledge" end.

Definition says (k : kst V) (a : ast) (o : lop V) (ms : list (lmsg V)) : Prop :=
  match o with
  | OActor st caller o =>
      tells k o (or_else caller (calling st)) (or_else caller (bulk_name o))
        (or_else caller "get_and_clear_knowledge") "create_knowledge_event" ms
  | OTask st cls _ o => tells k o cls cls cls "create_knowledge_event" ms
  | OQueue st _ QuClear => ms = [MClearQueue (calling st)]
  | OQueue st _ (QuSet _) => ms = [MSetQueue (calling st)]
  | OTaskQueue _ (Some _) QuClear => ms = [MClearQueue "clear_actor_task_queue"]
  | OTaskQueue _ (Some _) (QuSet _) => ms = [MSetQueue "set_actor_task_queue"]
  | OBegin _ n t =>
      ms = match sget n (a_queues a) with
           | None => [MSetQueue "_begin_next_task"]
           | Some [] => [MSetQueue "_begin_next_task"; MBegin t]
           | Some (x :: _) => if String.eqb x t then [MBegin t] else []
           end
  | OSay m => ms = [MSay m]
  | _ => ms = []
  end.

(** What the log says a name holds, if it held [x] before. *)
Fixpoint told (n : key) (x : option (kval V)) (ms : list (lmsg V)) : option (kval V) :=
  match ms with
  | [] => x
  | MSet m v _ :: ms' => told n (if Z.eqb m n then Some v else x) ms'
  | MClear m _ :: ms' => told n (if Z.eqb m n then None else x) ms'
  | _ :: ms' => told n x ms'
  end.

(** A change that would have put in something was refused. *)
Definition put_refused (o : lop V) (r : lout V) : Prop :=
  r = LKn NSimError /\
  match o with
  | OActor _ _ (NSet _ _ _) | OActor _ _ (NSetBulk _ _) | OActor _ _ (NCreateEvent _)
  | OTask _ _ _ (NSet _ _ _) | OTask _ _ _ (NSetBulk _ _) | OTask _ _ _ (NCreateEvent _) => True
  | _ => False
  end.

Definition no_wait_back (o : lop V) : Prop := match o with OWait dt => 0 <= dt | _ => True end.
Definition not_read (o : lop V) : Prop := o <> ORead.
End Spec.

Arguments lines {V}. Arguments plain {V}. Arguments taken_name {V}. Arguments missing_name {V}.
Arguments tells {V}. Arguments bulk_name {V}. Arguments says {V}. Arguments told {V}. Arguments put_refused {V}.
Arguments no_wait_back {V}. Arguments not_read {V}.
