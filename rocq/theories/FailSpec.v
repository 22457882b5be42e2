(** Vocabulary for tasks that fail. *)
From Verif Require Import Common EvModel EvSpec TaskModel FailModel.

(** What others make of the surroundings while the task does nothing. *)
Fixpoint others {W} (w : W) (is : list (finput W)) : W :=
  match is with
  | [] => w
  | FIn (IWorld w') :: is' => others w' is'
  | _ :: is' => others w is'
  end.
(** The task is between two yields, and what it resumes next. *)
Definition about_to_resume (g : fctl) (f : frame) (st : list frame) (v : val) : Prop :=
  match g with
  | GOn c => c_phase c = PRun /\ c_stack c = f :: st /\ v = match f with FTask _ => c_ret c | FRout _ _ => None end /\
             (fresh f = true -> c_ret c = None)
  | _ => False
  end.
(** It waits for something, in its body or a routine's, or cancelling its routines. *)
Definition awaiting (g : fctl) : Prop :=
  match g with
  | GOn c => (exists e, c_phase c = PWait e) \/ (exists l b, c_phase c = PCancel l b)
  | _ => False
  end.
(** An event that has failed: a process that is over, or a condition that is. *)
Definition failed (h : heap) (e : ev) : Prop :=
  match e with
  | ELeaf i => ekind_of h i = Some KProc /\ estat_of h i <> Some SPend
  | EMulti i _ => (exists a, ekind_of h i = Some (KMulti a)) /\ estat_of h i <> Some SPend
  end.
Definition ignores (a : answer) : bool := match a with RIgnore => true | _ => false end.
(** The answer is not one after which the task goes on. *)
Definition quiet (o : fout) : Prop :=
  match o with
  | FOut (OResume _ _) | FOut (OYield _) | FOut (OClean _) | FOut (OCancel _ _) | FOut OEnd => False
  | _ => True
  end.
