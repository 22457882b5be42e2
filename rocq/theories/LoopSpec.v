(** What running networks are claimed to do, said of what happened only. *)
From Verif Require Import Common NetModel LoopModel.

Definition happened := list (Q * lout).     (* oldest first *)

(** The marker standing after what happened: the last one set and not cleared
    since the task began, with the time it was set and its interrupt action. *)
Inductive standing : happened -> option (string * Q * iact) -> Prop :=
| StNone : standing [] None
| StSet h t m a : standing (h ++ [(t, OMark m a)]) (Some (m, t, a))
| StClear h t : standing (h ++ [(t, OUnmark)]) None
| StBegin h t n k : standing (h ++ [(t, OBegin n k)]) None
| StOther h t o x : standing h x ->
    (forall m a, o <> OMark m a) -> o <> OUnmark -> (forall n k, o <> OBegin n k) ->
    standing (h ++ [(t, o)]) x.
Definition action_of (x : option (string * Q * iact)) : iact :=
  match x with Some (_, _, a) => a | None => IEnd end.

(** The same, but a restart counts as a beginning. *)
Inductive standing_since_restart : happened -> option (string * Q * iact) -> Prop :=
| SrNone : standing_since_restart [] None
| SrSet h t m a : standing_since_restart (h ++ [(t, OMark m a)]) (Some (m, t, a))
| SrClear h t : standing_since_restart (h ++ [(t, OUnmark)]) None
| SrBegin h t n k : standing_since_restart (h ++ [(t, OBegin n k)]) None
| SrAgain h t : standing_since_restart (h ++ [(t, OAgain)]) None
| SrOther h t o x : standing_since_restart h x ->
    (forall m a, o <> OMark m a) -> o <> OUnmark -> (forall n k, o <> OBegin n k) -> o <> OAgain ->
    standing_since_restart (h ++ [(t, o)]) x.

(** The event the task waits for. *)
Inductive awaited : happened -> nat -> Prop :=
| AwHere h t e : awaited (h ++ [(t, OWait e)]) e
| AwOther h t o e : awaited h e -> (forall e', o <> OWait e') -> awaited (h ++ [(t, o)]) e.

(** The task the network is in, with its kind. *)
Inductive in_task : happened -> string -> lkind -> Prop :=
| InHere h t n k : in_task (h ++ [(t, OBegin n k)]) n k
| InOther h t o n k : in_task h n k -> (forall n' k', o <> OBegin n' k') -> in_task (h ++ [(t, o)]) n k.
(** The process made last. *)
Inductive made_last : happened -> nat -> Prop :=
| MlHere h t p : made_last (h ++ [(t, OMade p)]) p
| MlOther h t o p : made_last h p -> (forall p', o <> OMade p') -> made_last (h ++ [(t, o)]) p.
(** A process that was made and has not ended; when a network fails, the
    process of its task has failed or ended. *)
Definition alive (h : happened) (p : nat) : Prop :=
  (exists t, In (t, OMade p) h) /\ (forall t, ~ In (t, OOver p) h) /\ (forall t x, ~ In (t, ODead x) h).
Definition dead (h : happened) : Prop := exists t x, In (t, ODead x) h.

Definition decision (k : lkind) : Prop := k = KHold \/ k = KSkip.
Definition begins (o : lout) : Prop := exists n k, o = OBegin n k.
(** How often decisions were made. *)
Fixpoint decisions (h : happened) : nat :=
  match h with
  | [] => 0
  | (_, ODecided) :: h' => S (decisions h')
  | _ :: h' => decisions h'
  end.

(** The tasks begun, in order. *)
Fixpoint begun (h : happened) : list string :=
  match h with
  | [] => []
  | (_, OBegin n _) :: h' => n :: begun h'
  | _ :: h' => begun h'
  end.

(** [path d n l]: the names in [l] are, in order, the defaults after [n]. *)
Fixpoint path (d : lnet) (n : string) (l : list string) : Prop :=
  match l with
  | [] => True
  | n' :: l' => (exists al, sget n (ln_links d) = Some (mkLinks (Some n') al)) /\ path d n' l'
  end.
Definition kind_is (d : lnet) (k : lkind) (n : string) : Prop := sget n (ln_classes d) = Some k.
