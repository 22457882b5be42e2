(** Vocabulary for data tables of a run. *)
From Coq Require Import String.
From Verif Require Import Common StateModel StateSpec NetModel TabModel RepModel.
Open Scope list_scope.

Section RepSpec.
Variable V : Type.

(** Nothing is set yet. *)
Definition unset (t : Q) (c : comp V) : Prop :=
  match c with CPlain _ _ s => s = sinit t [] | CKeyed _ _ _ s => s = kvinit t end.
(** Names are used once.  "Resource" is what the table calls resources of their own. *)
Definition fresh (w : rworld V) : Prop :=
  NoDup (map ra_name (rw_actors w)) /\
  forall a, In a (rw_actors w) -> NoDup (map fst (ra_comps a)) /\
    forall n c, In (n, c) (ra_comps a) -> unset (rw_now w) c /\ n <> "Resource"%string.

(** What was done to one state, and the passing of time. *)
Definition plain_part (i j : nat) (tr : list (rop V * rout V)) : list (sop V * sout) :=
  flat_map (fun e => match e with
    | (RPlain i' j' o, RS r) => if Nat.eqb i' i && Nat.eqb j' j then [(o, r)] else []
    | (RTime t, RTick) => [(STime t, ROk)]
    | _ => [] end) tr.
Definition keyed_part (i j : nat) (tr : list (rop V * rout V)) : list (kvop V * kvout V) :=
  flat_map (fun e => match e with
    | (RKeyed i' j' o, RK r) => if Nat.eqb i' i && Nat.eqb j' j then [(o, r)] else []
    | (RTime t, RTick) => [(KTime t, KOk)]
    | _ => [] end) tr.
(** No dictionary or dataclass is given with a key twice. *)
Definition rop_wf (o : rop V) : Prop :=
  match o with RKeyed _ _ (KInit l) | RKeyed _ _ (KInitDc l) => NoDup (map fst l) | _ => True end.

(** A state was given a value; no part of it was refused for its type. *)
Definition given (i j : nat) (tr : list (rop V * rout V)) (c : comp V) : Prop :=
  match c with
  | CPlain _ _ _ => assigned [] (plain_part i j tr) <> []
  | CKeyed _ _ _ _ => (exists l, In (KInit l, KOk) (keyed_part i j tr) \/ In (KInitDc l, KOk) (keyed_part i j tr)) /\
                      forall o, ~ In (o, KType) (keyed_part i j tr)
  end.

(** Rows about a state; about a key of it. *)
Definition about (a s : string) (r : row V) : bool := String.eqb (r_name V r) a && String.eqb (r_state V r) s.
Definition about_key (a s k : string) (r : row V) : bool :=
  about a s r && match r_key V r with Some k' => String.eqb k' k | None => false end.
(** What they tell, newest first. *)
Definition told (l : list (row V)) : list (Q * V) := rev (map (fun r => (r_time V r, r_value V r)) l).
End RepSpec.
