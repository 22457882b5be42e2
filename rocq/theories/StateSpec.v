(** Vocabulary for histories of states. *)
From Verif Require Import Common StateModel.

Section HistSpec.
Context {V : Type}.
Variable veq : V -> V -> bool.

(** Value in force at time [t] according to a history (newest first). *)
Fixpoint at_time (t : Q) (h : list (Q * V)) : option V :=
  match h with
  | [] => None
  | (u, v) :: h' => if Qleb u t then Some v else at_time t h'
  end.
Fixpoint ordered (h : list (Q * V)) : Prop :=
  match h with
  | (u, _) :: (((w, _) :: _) as h') => w <= u /\ ordered h'
  | _ => True
  end.
Fixpoint no_repeat (h : list (Q * V)) : Prop :=
  match h with
  | (u, v) :: (((w, x) :: _) as h') => ~ (u == w /\ veq v x = true) /\ no_repeat h'
  | _ => True
  end.
Inductive subseq : list (Q * V) -> list (Q * V) -> Prop :=
| sub_nil : subseq [] []
| sub_take e a b : subseq a b -> subseq (e :: a) (e :: b)
| sub_skip e a b : subseq a b -> subseq a (e :: b).
(** [w] shows the written value [v]: the same, or one python finds equal. *)
Definition shows (w v : option V) : Prop :=
  match w, v with
  | Some x, Some y => x = y \/ veq y x = true
  | None, None => True
  | _, _ => False
  end.

(** [h] is a faithful record of the writes [ws] (both newest first). *)
Record faithful (dups : bool) (h ws : list (Q * V)) : Prop := {
  f_ordered : ordered h;
  f_no_repeat : dups = false -> no_repeat h;
  f_complete : dups = true -> h = ws;
  f_from_writes : subseq h ws;
  f_shown : forall t v, In (t, v) ws -> exists u w, In (u, w) h /\ u == t /\ (w = v \/ veq v w = true);
  f_value : forall t, shows (at_time t h) (at_time t ws) }.
End HistSpec.

Section Writes.
Context {V : Type}.
(** The writes of a history of operations with their results: accepted
    assignments and explicit recordings, with their times, newest first;
    [cur] is the value assigned last. *)
Fixpoint writes (t : Q) (cur : option V) (acc : list (Q * V)) (tr : list (sop V * sout)) : list (Q * V) :=
  match tr with
  | [] => acc
  | (SAssign v, ROk) :: tr' => writes t (Some v) ((t, v) :: acc) tr'
  | (SRecord, ROk) :: tr' =>
      match cur with
      | Some v => writes t cur ((t, v) :: acc) tr'
      | None => writes t cur acc tr'
      end
  | (STime t', ROk) :: tr' => writes t' cur acc tr'
  | _ :: tr' => writes t cur acc tr'
  end.
(** Accepted assignments, newest first. *)
Fixpoint assigned (acc : list V) (tr : list (sop V * sout)) : list V :=
  match tr with
  | [] => acc
  | (SAssign v, ROk) :: tr' => assigned (v :: acc) tr'
  | _ :: tr' => assigned acc tr'
  end.

(** Results of a recording function fed with the writes (newest first). *)
Variables (RS : Type) (rfun : RS -> Q -> V -> RS * V).
Fixpoint results (r0 : RS) (ws : list (Q * V)) : RS * list (Q * V) :=
  match ws with
  | [] => (r0, [])
  | (t, v) :: ws' => let '(r, l) := results r0 ws' in
                     let '(r', x) := rfun r t v in (r', (t, x) :: l)
  end.

(** Writes to key [k] of a dictionary or dataclass state, newest first. *)
Fixpoint kwrites (k : key) (t : Q) (acc : list (Q * V)) (tr : list (kvop V * kvout V)) : list (Q * V) :=
  match tr with
  | [] => acc
  | (KTime t', KOk) :: tr' => kwrites k t' acc tr'
  | (KInit l, KOk) :: tr' | (KInitDc l, KOk) :: tr' =>
      kwrites k t (match kget k l with Some v => (t, v) :: acc | None => acc end) tr'
  | (KSetItem j v, KOk) :: tr' | (KSetAttr j v, KOk) :: tr' | (KSetDefault j v, KStored _) :: tr' =>
      kwrites k t (if Z.eqb j k then (t, v) :: acc else acc) tr'
  | _ :: tr' => kwrites k t acc tr'
  end.
End Writes.
