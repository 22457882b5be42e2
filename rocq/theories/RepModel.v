(** Actors whose states are written while the clock moves, and the data table made of
    them: joins StateModel (states.py:78-340, 1173-1405) and TabModel
    (data_utils/data_utils.py) by what an actor stores, its __dict__ and its
    _state_histories (actor.py:142-150; states.py:174-209, 1204-1236).

    An actor has ordinary states and dictionary or dataclass states; no recording
    functions, no resources, no active states, no locations.  The value of an ordinary
    state is not itself a dataclass or dict. *)
From Coq Require Import String.
From Verif Require Import Common StateModel NetModel TabModel.
Open Scope list_scope.

Section Rep.
Variable V : Type.
Variable veq : V -> V -> bool.
Variable is_none : V -> bool.
Variable whole : list (key * V) -> V.     (* a dataclass object as a value *)
Variable kname : key -> string.           (* a key or a field in the name of its history *)

(** What is declared, and what is stored. *)
Inductive comp :=
| CPlain (d : StateModel.sdef) (typ : V -> bool) (s : sst V unit)
| CKeyed (dict : bool) (d : kvdef V) (typ : V -> bool) (s : kvst V).   (* not dict: dataclass *)
Record ract := mkRA { ra_name : string; ra_kind : string; ra_comps : list (string * comp) }.
Record rworld := mkRW { rw_now : Q; rw_actors : list ract }.

Definition no_fun (u : unit) (_ : Q) (v : V) : unit * V := (u, v).
Definition plain_step (typ : V -> bool) := sstep V veq is_none typ unit no_fun.
Definition keyed_step (typ : V -> bool) := kvstep V veq typ.
(** The clock is one for all. *)
Definition clock (t : Q) (c : comp) : comp :=
  match c with
  | CPlain d typ s => CPlain d typ (fst (plain_step typ d s (STime t)))
  | CKeyed b d typ s => CKeyed b d typ (fst (keyed_step typ d s (KTime t)))
  end.
Definition tick (t : Q) (a : ract) : ract :=
  mkRA (ra_name a) (ra_kind a) (map (fun nc => (fst nc, clock t (snd nc))) (ra_comps a)).

Fixpoint put_nth {X} (i : nat) (x : X) (l : list X) : list X :=
  match l, i with
  | [], _ => []
  | _ :: l', O => x :: l'
  | y :: l', S i' => y :: put_nth i' x l'
  end.
Definition comp_at (w : rworld) (i j : nat) : option (string * comp) :=
  match nth_error (rw_actors w) i with Some a => nth_error (ra_comps a) j | None => None end.
Definition put (i j : nat) (nc : string * comp) (w : rworld) : rworld :=
  match nth_error (rw_actors w) i with
  | Some a => mkRW (rw_now w) (put_nth i (mkRA (ra_name a) (ra_kind a) (put_nth j nc (ra_comps a))) (rw_actors w))
  | None => w
  end.

(** An operation on state [j] of actor [i]; time. *)
Inductive rop := RPlain (i j : nat) (o : sop V) | RKeyed (i j : nat) (o : kvop V) | RTime (t : Q).
Inductive rout := RS (r : sout) | RK (r : kvout V) | RTick | RIll.
(** What can be done to a dictionary state, and to a dataclass state. *)
Definition fits (dict : bool) (o : kvop V) : bool :=
  match o with
  | KInit _ | KSetItem _ _ | KSetDefault _ _ => dict
  | KInitDc _ | KSetAttr _ _ => negb dict
  | KTime _ => false
  end.
Definition rstep (w : rworld) (o : rop) : rworld * rout :=
  match o with
  | RTime t => if Qleb (rw_now w) t then (mkRW t (map (tick t) (rw_actors w)), RTick) else (w, RIll)
  | RPlain i j o =>
      match comp_at w i j, o with
      | Some (n, CPlain d typ s), (SAssign _ | SRecord) =>
          let '(s', r) := plain_step typ d s o in (put i j (n, CPlain d typ s') w, RS r)
      | _, _ => (w, RIll)
      end
  | RKeyed i j o =>
      match comp_at w i j with
      | Some (n, CKeyed b d typ s) =>
          if fits b o then let '(s', r) := keyed_step typ d s o in (put i j (n, CKeyed b d typ s') w, RK r) else (w, RIll)
      | _ => (w, RIll)
      end
  end.
Fixpoint rrun (w : rworld) (os : list rop) : rworld * list (rop * rout) :=
  match os with
  | [] => (w, [])
  | o :: os' => let '(w1, r) := rstep w o in let '(w2, tr) := rrun w1 os' in (w2, (o, r) :: tr)
  end.

(** What create_table finds: _state_histories, kept oldest first, ... *)
Definition entries (h : list (Q * V)) : hist V := rev (map (fun tv => (fst tv, HVal V (snd tv))) h).
Definition comp_hist (nc : string * comp) : list (string * option string * hist V) :=
  match snd nc with
  | CPlain _ _ s => match s_hist s with [] => [] | h => [(fst nc, None, entries h)] end
  | CKeyed _ _ _ s => map (fun kh => (fst nc, Some (kname (fst kh)), entries (snd kh))) (kv_hist s)
  end.
(** ... and __dict__ *)
Definition comp_def (nc : string * comp) : TabModel.sdef V :=
  mkSd V (fst nc) false false
    match snd nc with
    | CPlain _ _ s => option_map (DVal V) (s_val s)
    | CKeyed true _ _ s => option_map (fun m => DDict V (map (fun kv => (kname (fst kv), snd kv)) m)) (kv_dict s)
    | CKeyed false _ _ s => option_map (fun m => DData V (map (fun kv => kname (fst kv)) m) (whole m)) (kv_dict s)
    end.
Definition tab_actor (a : ract) : actor V :=
  mkAc V (ra_name a) (ra_kind a) (map comp_def (ra_comps a)) (flat_map comp_hist (ra_comps a)).
(** create_table(skip_locations=True, save_static=save_static) *)
Definition table (save_static : bool) (w : rworld) : list (row V) + err :=
  create_table V (fun _ => mkRs V "" "" []) true save_static (map tab_actor (rw_actors w)) [].
End Rep.
Arguments CPlain {V}. Arguments CKeyed {V}. Arguments mkRA {V}. Arguments ra_name {V}. Arguments ra_kind {V}. Arguments ra_comps {V}.
Arguments mkRW {V}. Arguments rw_now {V}. Arguments rw_actors {V}. Arguments RPlain {V}. Arguments RKeyed {V}. Arguments RTime {V}.
Arguments RS {V}. Arguments RK {V}. Arguments RTick {V}. Arguments RIll {V}. Arguments comp_at {V}.
