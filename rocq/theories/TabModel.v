(** Model of data_utils/data_utils.py: create_table and create_location_table.

    [V] are the values recorded.  A name "state.key" is a pair; the name of a history
    kept by a recording function counts as a plain name (one containing a dot that
    begins like a state is not modelled).  Reading a state with getattr gives the
    value named in its description. *)
From Coq Require Import String.
From Verif Require Import Common NetModel.
Open Scope string_scope.
Open Scope list_scope.

Section Tab.
Variable V : Type.

(** Entries of histories: a value; a dataclass or dict value, with its fields; the
    activation markers (states.py:55-57). *)
Inductive hv := HVal (v : V) | HFields (l : list (string * V)) | HMark (activating : bool).
Definition hist := list (Q * hv).
(** The last column. *)
Inductive status := SNone | SInactive | SActive | SActivating | SDeactivating | SLastSeen.
Record row := mkRow { r_name : string; r_kind : string; r_state : string; r_key : option string;
                      r_time : Q; r_value : V; r_status : status }.

(** _state_history_to_table, data_utils/data_utils.py:48-68.  Popping from an empty list raises
    IndexError: None. *)
Definition mark_name (b : bool) : status := if b then SActivating else SDeactivating.
Definition set_status (r : row) (x : status) : row :=
  mkRow (r_name r) (r_kind r) (r_state r) (r_key r) (r_time r) (r_value r) x.
Fixpoint pop (l : list row) : option (list row * row) :=
  match l with
  | [] => None
  | [r] => Some ([], r)
  | r :: l' => match pop l' with Some (a, x) => Some (r :: a, x) | None => None end
  end.
Fixpoint hist_rows (name kind sname : string) (key : option string) (active : status) (data : list row) (h : hist) : option (list row) :=
  match h with
  | [] => Some data
  | (t, HMark b) :: h' =>
      match pop data with
      | None => None
      | Some (data', r) => hist_rows name kind sname key (if b then SActive else SInactive) (data' ++ [set_status r (mark_name b)]) h'
      end
  | (t, HFields l) :: h' =>
      hist_rows name kind sname key active
        (data ++ map (fun kv => mkRow name kind sname (Some (fst kv)) t (snd kv) active) l) h'
  | (t, HVal v) :: h' => hist_rows name kind sname key active (data ++ [mkRow name kind sname key t v active]) h'
  end.
Definition to_table (name kind sname : string) (key : option string) (is_active : bool) (h : hist) : option (list row) :=
  hist_rows name kind sname key (if is_active then SInactive else SNone) [] h.

(** ** Actors *)
Inductive stored :=
| DVal (read : V)                           (* an ordinary value; what reading gives *)
| DDict (items : list (string * V))         (* DictionaryState *)
| DData (names : list string) (read : V)    (* DataclassState: field names; what reading gives *)
| DRes (r : nat) (read : V).                (* a resource with _quantities *)
Record sdef := mkSd { sd_name : string; sd_location : bool; sd_active : bool; sd_stored : option stored }.
Record actor := mkAc { a_name : string; a_kind : string; a_states : list sdef;
                       a_hist : list (string * option string * hist) }.
(** Monitored resources: name, class, _quantities. *)
Record res := mkRs { rs_name : string; rs_kind : string; rs_quant : list (Q * V) }.

Inductive err := IndexError | KeyError | AssertionError | ValueError | UnboundLocal.
Definition key_eqb (a b : option string) : bool :=
  match a, b with Some x, Some y => String.eqb x y | None, None => true | _, _ => false end.
Fixpoint hget (n : string) (k : option string) (d : list (string * option string * hist)) : option hist :=
  match d with
  | [] => None
  | (m, j, h) :: d' => if String.eqb m n && key_eqb j k then Some h else hget n k d'
  end.
Definition is_prefilled (n : string) (d : list (string * option string * hist)) : bool :=
  existsb (fun e => String.eqb (fst (fst e)) n && match snd (fst e) with Some _ => true | None => false end) d.
Definition of_opt {A} (e : err) (o : option A) : A + err := match o with Some x => inl x | None => inr e end.

(** The histories of the keys, data_utils.py:71-76, 113-121 *)
Fixpoint key_rows (a : actor) (d : sdef) (keys : list string) : list row + err :=
  match keys with
  | [] => inl []
  | k :: keys' =>
      match hget (sd_name d) (Some k) (a_hist a) with
      | None => inr AssertionError
      | Some h =>
          match to_table (a_name a) (a_kind a) (sd_name d) (Some k) (sd_active d) h with
          | None => inr IndexError
          | Some l => match key_rows a d keys' with inl l' => inl (l ++ l') | inr e => inr e end
          end
      end
  end.
Variable quant : nat -> res.
Variable skip_locations save_static : bool.
(** One state, data_utils.py:101-135: rows and resources. *)
Definition state_rows (a : actor) (d : sdef) : (list row * list nat) + err :=
  if skip_locations && sd_location d then inl ([], []) else
  match sd_stored d with
  | None => inr KeyError
  | Some v =>
      match hget (sd_name d) None (a_hist a) with
      | Some h => match to_table (a_name a) (a_kind a) (sd_name d) None (sd_active d) h with
                  | Some l => inl (l, []) | None => inr IndexError end
      | None =>
          if is_prefilled (sd_name d) (a_hist a) then
            match v with
            | DDict items => match key_rows a d (map fst items) with inl l => inl (l, []) | inr e => inr e end
            | DData names _ => match key_rows a d names with inl l => inl (l, []) | inr e => inr e end
            | _ => inr ValueError
            end
          else match v with
               | DRes r _ =>
                   match to_table (a_name a) (a_kind a) (sd_name d) None false (map (fun tv => (fst tv, HVal (snd tv))) (rs_quant (quant r))) with
                   | Some l => inl (l, [r]) | None => inr IndexError end
               | _ =>
                   if save_static then
                     match v with
                     | DDict items => inl (map (fun kv => mkRow (a_name a) (a_kind a) (sd_name d) (Some (fst kv)) 0 (snd kv) SLastSeen) items, [])
                     | DVal x | DData _ x | DRes _ x => inl ([mkRow (a_name a) (a_kind a) (sd_name d) None 0 x SLastSeen], [])
                     end
                   else inl ([], [])
               end
      end
  end.
Fixpoint states_rows (a : actor) (ds : list sdef) : (list row * list nat) + err :=
  match ds with
  | [] => inl ([], [])
  | d :: ds' => match state_rows a d with
                | inr e => inr e
                | inl (l, r) => match states_rows a ds' with inl (l', r') => inl (l ++ l', r ++ r') | inr e => inr e end
                end
  end.
Fixpoint actors_rows (as_ : list actor) : (list row * list nat) + err :=
  match as_ with
  | [] => inl ([], [])
  | a :: as' => match states_rows a (a_states a) with
                | inr e => inr e
                | inl (l, r) => match actors_rows as' with inl (l', r') => inl (l ++ l', r ++ r') | inr e => inr e end
                end
  end.
(** create_table, data_utils.py:215-230 *)
Definition res_rows (r : nat) : list row :=
  map (fun tv => mkRow (rs_name (quant r)) (rs_kind (quant r)) "Resource" None (fst tv) (snd tv) SNone) (rs_quant (quant r)).
Definition create_table (actors : list actor) (monitored : list nat) : list row + err :=
  match actors_rows actors with
  | inr e => inr e
  | inl (l, seen) => inl (l ++ flat_map (fun r => if existsb (Nat.eqb r) seen then [] else res_rows r) monitored)
  end.
End Tab.

(** ** Locations *)
Inductive lv := LGeo (lat lon alt : Q) | LCart (x y z : Q) | LMark (activating : bool).
Record lrow := mkLRow { l_name : string; l_kind : string; l_state : string; l_time : Q;
                        l_coord : Q * Q * Q; l_status : status }.
(** A history of an actor: state, is it a location state, an active one, its entries. *)
Record lhist := mkLH { lh_state : string; lh_location : bool; lh_active : bool; lh_entries : list (Q * lv) }.
Record lactor := mkLA { la_name : string; la_kind : string; la_hists : list lhist }.
Definition lset (r : lrow) (x : status) : lrow :=
  mkLRow (l_name r) (l_kind r) (l_state r) (l_time r) (l_coord r) x.
Fixpoint lpop (l : list lrow) : option (list lrow * lrow) :=
  match l with
  | [] => None
  | [r] => Some ([], r)
  | r :: l' => match lpop l' with Some (a, x) => Some (r :: a, x) | None => None end
  end.
(** _actor_location_data, data_utils.py:154-176: one list for all states; is_xyz *)
Fixpoint lentries (name kind sname : string) (active : status) (data : list lrow) (xyz : bool) (h : list (Q * lv)) : option (list lrow * bool) :=
  match h with
  | [] => Some (data, xyz)
  | (t, LMark b) :: h' =>
      match lpop data with
      | None => None
      | Some (data', r) => lentries name kind sname (if b then SActive else SInactive) (data' ++ [lset r (mark_name b)]) xyz h'
      end
  | (t, LGeo x y z) :: h' => lentries name kind sname active (data ++ [mkLRow name kind sname t (x, y, z) active]) false h'
  | (t, LCart x y z) :: h' => lentries name kind sname active (data ++ [mkLRow name kind sname t (x, y, z) active]) xyz h'
  end.
Fixpoint lhists (name kind : string) (data : list lrow) (xyz : bool) (hs : list lhist) : option (list lrow * bool) :=
  match hs with
  | [] => Some (data, xyz)
  | h :: hs' =>
      if lh_location h then
        match lentries name kind (lh_state h) (if lh_active h then SInactive else SNone) data xyz (lh_entries h) with
        | None => None
        | Some (data', xyz') => lhists name kind data' xyz' hs'
        end
      else lhists name kind data xyz hs'
  end.
Inductive cols := XYZ | LatLonAlt.
Definition actor_location (a : lactor) : option (list lrow * cols) :=
  match lhists (la_name a) (la_kind a) [] true (la_hists a) with
  | None => None
  | Some (l, xyz) => Some (l, if xyz then XYZ else LatLonAlt)
  end.
(** create_location_table, data_utils.py:256-261: the columns are those of the last actor *)
Fixpoint location_rows (as_ : list lactor) (c : option cols) : (list lrow * option cols) + err :=
  match as_ with
  | [] => inl ([], c)
  | a :: as' =>
      match actor_location a with
      | None => inr IndexError
      | Some (l, c') => match location_rows as' (Some c') with inl (l', c'') => inl (l ++ l', c'') | inr e => inr e end
      end
  end.
Definition create_location_table (as_ : list lactor) : (list lrow * cols) + err :=
  match location_rows as_ None with
  | inl (l, Some c) => inl (l, c)
  | inl (_, None) => inr UnboundLocal
  | inr e => inr e
  end.
