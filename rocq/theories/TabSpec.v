(** Vocabulary for the properties of the data tables.  Nothing here uses the functions
    that build the tables. *)
From Coq Require Import String.
From Verif Require Import Common NetModel TabModel.
Open Scope string_scope.
Open Scope list_scope.

Section TabSpec.
Variable V : Type.
Notation hv := (hv V). Notation hist := (list (Q * hv)). Notation row := (row V).
Notation actor := (actor V). Notation sdef := (sdef V).

(** What an entry shows: its value, or its fields, or (a marker) nothing. *)
Definition cells (key : option string) (e : hv) : list (option string * V) :=
  match e with
  | HVal _ v => [(key, v)]
  | HFields _ l => map (fun kv => (Some (fst kv), snd kv)) l
  | HMark _ _ => []
  end.
Definition ncells (key : option string) (h : hist) : nat :=
  List.length (flat_map (fun te => cells key (snd te)) h).
(** The last of the markers that follow directly. *)
Fixpoint marker_after (h : hist) : option bool :=
  match h with
  | (_, HMark _ b) :: h' => match marker_after h' with Some b' => Some b' | None => Some b end
  | _ => None
  end.
(** The status after a history: that of its last marker. *)
Definition phase (d : status) (h : hist) : status :=
  fold_left (fun x te => match snd te with HMark _ b => if b then SActive else SInactive | _ => x end) h d.
Definition default (is_active : bool) : status := if is_active then SInactive else SNone.

(** [l] shows the history [h]: in its order, one row for each value (each field of a
    dataclass or dict) with its time; the last column says whether the state was active
    then, or, on the last row before a marker, gives the marker. *)
Definition shows (name kind sname : string) (key : option string) (is_active : bool) (h : hist) (l : list row) : Prop :=
  List.length l = ncells key h /\
  forall pre t e post j c, h = pre ++ (t, e) :: post -> nth_error (cells key e) j = Some c ->
    nth_error l (ncells key pre + j)%nat =
    Some (mkRow V name kind sname (fst c) t (snd c)
            (if Nat.eqb (S j) (List.length (cells key e))
             then match marker_after post with
                  | Some b => if b then SActivating else SDeactivating
                  | None => phase (default is_active) pre
                  end
             else phase (default is_active) pre)).

(** A history as recording makes it: it begins with a value, and no value is an empty
    dataclass or dict. *)
Definition good_history (h : hist) : Prop :=
  (forall t b h', h <> (t, HMark _ b) :: h') /\ (forall t, ~ In (t, HFields _ []) h).

(** The history kept under a name. *)
Definition has_history (a : actor) (s : string) (k : option string) (h : hist) : Prop :=
  exists pre post, a_hist V a = pre ++ (s, k, h) :: post /\ forall h', ~ In (s, k, h') pre.
Definition by_key (a : actor) (s : string) : Prop := exists k h, In (s, Some k, h) (a_hist V a).
Definition keys_of (v : stored V) : list string :=
  match v with DDict _ items => map fst items | DData _ names _ => names | _ => [] end.

Variable quant : nat -> res V.
Variable skip_locations save_static : bool.
Variable actors : list actor.
Variable monitored : list nat.

Definition state_of (i : nat) (a : actor) (d : sdef) (v : stored V) : Prop :=
  nth_error actors i = Some a /\ In d (a_states V a) /\ sd_stored V d = Some v /\
  (skip_locations && sd_location V d = false).
Definition recorded (a : actor) (d : sdef) : Prop :=
  (exists h, has_history a (sd_name V d) None h) \/ by_key a (sd_name V d).

(** Where rows come from. *)
Inductive source :=
| FromState (i : nat) (s : string) (k : option string)   (* a history of the i-th actor *)
| FromOwn (i : nat) (s : string) (r : nat)               (* a resource in one of its states *)
| FromStatic (i : nat) (s : string)                      (* a state that is not recorded *)
| FromResource (r : nat).                                (* a resource on its own *)
Definition holds (i : nat) (s : string) (r : nat) : Prop :=
  exists a d x, state_of i a d (DRes _ r x) /\ sd_name V d = s /\ ~ recorded a d.
Definition static_rows (a : actor) (d : sdef) (v : stored V) : list row :=
  match v with
  | DDict _ items => map (fun kv => mkRow V (a_name V a) (a_kind V a) (sd_name V d) (Some (fst kv)) 0 (snd kv) SLastSeen) items
  | DVal _ x | DData _ _ x | DRes _ _ x => [mkRow V (a_name V a) (a_kind V a) (sd_name V d) None 0 x SLastSeen]
  end.
Definition block (src : source) (l : list row) : Prop :=
  match src with
  | FromState i s None => exists a d v h, state_of i a d v /\ sd_name V d = s /\ has_history a s None h /\
                            shows (a_name V a) (a_kind V a) s None (sd_active V d) h l
  | FromState i s (Some k) => exists a d v h, state_of i a d v /\ sd_name V d = s /\
                            (forall h', ~ In (s, None, h') (a_hist V a)) /\ In k (keys_of v) /\
                            has_history a s (Some k) h /\
                            shows (a_name V a) (a_kind V a) s (Some k) (sd_active V d) h l
  | FromOwn i s r => exists a d x, state_of i a d (DRes _ r x) /\ sd_name V d = s /\ ~ recorded a d /\
                     l = map (fun tv => mkRow V (a_name V a) (a_kind V a) s None (fst tv) (snd tv) SNone) (rs_quant V (quant r))
  | FromStatic i s => save_static = true /\
                      exists a d v, state_of i a d v /\ sd_name V d = s /\ ~ recorded a d /\
                      (forall r x, v <> DRes _ r x) /\ l = static_rows a d v
  | FromResource r => In r monitored /\ (forall i s, ~ holds i s r) /\
                      l = map (fun tv => mkRow V (rs_name V (quant r)) (rs_kind V (quant r)) "Resource" None (fst tv) (snd tv) SNone) (rs_quant V (quant r))
  end.

(** Names are used once, as in python dictionaries. *)
Definition well_named : Prop :=
  forall a, In a actors ->
    NoDup (map (sd_name V) (a_states V a)) /\
    forall d v, In d (a_states V a) -> sd_stored V d = Some v -> NoDup (keys_of v).
(** Every state shown has a value; every key of a state recorded by key has a history. *)
Definition all_set : Prop :=
  forall a d, In a actors -> In d (a_states V a) -> skip_locations && sd_location V d = false ->
    exists v, sd_stored V d = Some v /\
      (by_key a (sd_name V d) -> (forall h, ~ In (sd_name V d, None, h) (a_hist V a)) ->
        (exists items, v = DDict _ items) \/ (exists ns x, v = DData _ ns x)) /\
      (by_key a (sd_name V d) -> forall k, In k (keys_of v) -> exists h, In (sd_name V d, Some k, h) (a_hist V a)).
Definition good_histories : Prop :=
  forall a s k h, In a actors -> In (s, k, h) (a_hist V a) -> good_history h.
End TabSpec.

(** ** Locations *)
Definition coord (e : lv) : option (Q * Q * Q) :=
  match e with LGeo x y z | LCart x y z => Some (x, y, z) | LMark _ => None end.
(** A table of locations shows an entry. *)
Fixpoint lmarker_after (h : list (Q * lv)) : option bool :=
  match h with
  | (_, LMark b) :: h' => match lmarker_after h' with Some b' => Some b' | None => Some b end
  | _ => None
  end.
Definition lphase (d : status) (h : list (Q * lv)) : status :=
  fold_left (fun x te => match snd te with LMark b => if b then SActive else SInactive | _ => x end) h d.
Definition located (h : list (Q * lv)) : list (Q * lv) :=
  filter (fun te => match coord (snd te) with Some _ => true | None => false end) h.
Definition lshows (name kind : string) (hd : lhist) (l : list lrow) : Prop :=
  List.length l = List.length (located (lh_entries hd)) /\
  forall pre t e post c, lh_entries hd = pre ++ (t, e) :: post -> coord e = Some c ->
    nth_error l (List.length (located pre)) =
    Some (mkLRow name kind (lh_state hd) t c
            (match lmarker_after post with
             | Some b => if b then SActivating else SDeactivating
             | None => lphase (default (lh_active hd)) pre
             end)).
Definition lgood (h : list (Q * lv)) : Prop := forall t b h', h <> (t, LMark b) :: h'.
