(** Model of what the stepped motion manager looks at: registering sensors and targets by
    attribute names (motion/stepped_motion.py:109-171, 216-276, 300-320) and the search for
    states of an actor (actor.py:1090-1150).

    Entities are numbers.  An actor's states are listed in the order of _state_defs with
    their classes; other objects have attributes only.  Classes of states are the four that
    matter here, subclasses counting as their base.  Who is in view and is told is in
    StepModel; here a check gives the comparisons made.  The debug log is left out. *)
From Coq Require Import String.
From Verif Require Import Common.

Section Watch.
Variable L : Type.
Variable dist : L -> L -> Q.                     (* straight_line_distance *)

Inductive skind := SGeo | SCart | SDetect | SOther.
Inductive value := VLoc (l : L) | VNum (q : Q) | VBool (b : bool).
(** [o_states]: _state_defs of an actor, None for another object; [o_attrs]: the values of
    states and other attributes; a state without value is not among them. *)
Record ent := mkE {
  o_states : option (list (string * skind));
  o_attrs : list (string * value);
  o_enter : bool; o_exit : bool;                 (* has entity_entered_range, entity_exited_range *)
  o_check : option (L -> bool) }.                (* detection_checker *)
Record st := mkW {
  ents : nat -> ent;
  sensors : list (nat * (string * string));      (* _sensors: radius and location attribute *)
  targets : list (nat * string) }.               (* _detectables: location attribute *)

Inductive err := NotImplemented | SimulationErr | AttributeErr | KeyErr | TypeErr.
Inductive res (A : Type) := Ok (a : A) | Bad (e : err).
Arguments Ok {A}. Arguments Bad {A}.

Fixpoint sget {X} (k : string) (d : list (string * X)) : option X :=
  match d with [] => None | (j, x) :: d' => if String.eqb j k then Some x else sget k d' end.
Fixpoint sset {X} (k : string) (x : X) (d : list (string * X)) : list (string * X) :=
  match d with [] => [(k, x)] | (j, y) :: d' => if String.eqb j k then (j, x) :: d' else (j, y) :: sset k x d' end.
Fixpoint nget {X} (k : nat) (d : list (nat * X)) : option X :=
  match d with [] => None | (j, x) :: d' => if Nat.eqb j k then Some x else nget k d' end.
(** assignment to a key of a dict: a key that is there keeps its place *)
Fixpoint nset {X} (k : nat) (x : X) (d : list (nat * X)) : list (nat * X) :=
  match d with [] => [(k, x)] | (j, y) :: d' => if Nat.eqb j k then (j, x) :: d' else (j, y) :: nset k x d' end.
Definition ndel {X} (k : nat) (d : list (nat * X)) : list (nat * X) := filter (fun p => negb (Nat.eqb (fst p) k)) d.

(** getattr: a state without value raises SimulationError (states.py:277-278) *)
Definition getattr (e : ent) (n : string) : res value :=
  match sget n (o_attrs e) with
  | Some v => Ok v
  | None => match o_states e with
            | Some ds => match sget n ds with Some _ => Bad SimulationErr | None => Bad AttributeErr end
            | None => Bad AttributeErr
            end
  end.
(** hasattr: False for AttributeError, other errors pass *)
Definition hasattr (e : ent) (n : string) : res bool :=
  match getattr e n with Ok _ => Ok true | Bad AttributeErr => Ok false | Bad x => Bad x end.

Definition kind_eqb (a b : skind) : bool :=
  match a, b with SGeo, SGeo | SCart, SCart | SDetect, SDetect | SOther, SOther => true | _, _ => false end.
Definition states_of (e : ent) : list (string * skind) := match o_states e with Some l => l | None => [] end.
(** Actor._get_detection_state, actor.py:1090-1099 *)
Definition detection_state (e : ent) : res (option string) :=
  match filter (fun p => kind_eqb (snd p) SDetect) (states_of e) with
  | [] => Ok None
  | [(n, _)] => Ok (Some n)
  | _ => Bad NotImplemented
  end.
(** Actor._match_attr, actor.py:1101-1112 *)
Definition match_attr (e : ent) (n : string) : res (option string) :=
  match hasattr e n with Ok true => Ok (Some n) | Ok false => Ok None | Bad x => Bad x end.
(** Actor._get_matching_state without attr_matches, actor.py:1114-1150 *)
Definition matching_state (e : ent) (k : skind) : res (option string) :=
  match find (fun p => kind_eqb (snd p) k) (states_of e) with
  | Some (n, _) => match_attr e n
  | None => Ok None
  end.
(** _test_detect, stepped_motion.py:109-124; the value is used as it is *)
Definition test_detect (e : ent) : res bool :=
  match o_states e with
  | None => Ok true
  | Some _ =>
      match detection_state e with
      | Bad x => Bad x
      | Ok None => Ok true
      | Ok (Some n) => match getattr e n with
                       | Ok (VBool b) => Ok b
                       | Ok _ => Ok true           (* truthy *)
                       | Bad x => Bad x
                       end
      end
  end.

(** add_sensor, stepped_motion.py:216-245 *)
Definition add_sensor (w : st) (s : nat) (rname lname : string) : st * res unit :=
  let e := ents w s in
  if negb (o_enter e) then (w, Bad NotImplemented) else
  if negb (o_exit e) then (w, Bad NotImplemented) else
  match hasattr e rname with
  | Bad x => (w, Bad x)
  | Ok false => (w, Bad SimulationErr)
  | Ok true =>
      match hasattr e lname with
      | Bad x => (w, Bad x)
      | Ok false => (w, Bad SimulationErr)
      | Ok true => (mkW (ents w) (nset s (rname, lname) (sensors w)) (targets w), Ok tt)
      end
  end.
(** add_detectable, stepped_motion.py:247-276 *)
Definition add_target (w : st) (d : nat) (lname : string) (new_rate : option Q) : st * res unit :=
  match hasattr (ents w d) lname with
  | Bad x => (w, Bad x)
  | Ok false => (w, Bad SimulationErr)
  | Ok true =>
      match test_detect (ents w d) with
      | Bad _ => (w, Bad SimulationErr)
      | Ok _ => (mkW (ents w) (sensors w) (nset d lname (targets w)), Ok tt)
      end
  end.
(** _start_mover, stepped_motion.py:300-313, without the start of the loop *)
Definition start_mover (w : st) (m : nat) : st * res unit :=
  match nget m (targets w) with
  | Some _ => (w, Ok tt)
  | None =>
      match matching_state (ents w m) SGeo with
      | Bad x => (w, Bad x)
      | Ok n1 =>
          match matching_state (ents w m) SCart with
          | Bad x => (w, Bad x)
          | Ok n2 =>
              match (match n1 with Some n => Some n | None => n2 end) with
              | None => (w, Bad SimulationErr)
              | Some n => add_target w m n None
              end
          end
      end
  end.
(** _stop_mover, stepped_motion.py:315-320 *)
Definition stop_mover (w : st) (m : nat) : st := mkW (ents w) (sensors w) (ndel m (targets w)).

Fixpoint all_ok {A B} (f : A -> res B) (l : list A) : res (list B) :=
  match l with
  | [] => Ok []
  | a :: l' => match f a with
               | Bad x => Bad x
               | Ok b => match all_ok f l' with Bad x => Bad x | Ok bs => Ok (b :: bs) end
               end
  end.
(** [d for d in detectable_req if self._test_detect(d)] *)
Fixpoint detectable_now (w : st) (l : list nat) : res (list nat) :=
  match l with
  | [] => Ok []
  | d :: l' => match test_detect (ents w d) with
               | Bad x => Bad x
               | Ok b => match detectable_now w l' with
                         | Bad x => Bad x
                         | Ok ds => Ok (if b then d :: ds else ds)
                         end
               end
  end.
(** _detect_dist, stepped_motion.py:126-144 *)
Definition detect_dist (e : ent) (loc1 : value) (rad : value) (loc2 : value) : res bool :=
  match o_check e, loc2 with
  | Some f, VLoc l2 => Ok (f l2)
  | Some _, _ => Bad TypeErr
  | None, _ =>
      match loc1, loc2, rad with
      | VLoc l1, VLoc l2, VNum r => Ok (Qleb (dist l1 l2) r)
      | VLoc _, VLoc _, _ => Bad TypeErr
      | VLoc _, _, _ => Bad AttributeErr
      | _, _, _ => Bad AttributeErr
      end
  end.
(** One comparison: the sensor, the target, and whether it is seen *)
Definition compared := (nat * nat * bool)%type.
Fixpoint against (e : ent) (s : nat) (loc rad : value) (ds : list (nat * value)) : res (list compared) :=
  match ds with
  | [] => Ok []
  | (d, dloc) :: ds' =>
      if Nat.eqb d s then against e s loc rad ds' else
      match detect_dist e loc rad dloc with
      | Bad x => Bad x
      | Ok v => match against e s loc rad ds' with Bad x => Bad x | Ok cs => Ok ((s, d, v) :: cs) end
      end
  end.
(** _run_detectable, stepped_motion.py:146-171: [req] is detectable_req *)
Definition run_detectable (w : st) (req : option (list nat)) : res (list compared) :=
  match all_ok (fun s => getattr (ents w (fst s)) (fst (snd s))) (sensors w) with
  | Bad x => Bad x
  | Ok radii =>
      match all_ok (fun s => getattr (ents w (fst s)) (snd (snd s))) (sensors w) with
      | Bad x => Bad x
      | Ok locs =>
          match detectable_now w (match req with None => map fst (targets w) | Some l => l end) with
          | Bad x => Bad x
          | Ok ds =>
              match all_ok (fun d => match nget d (targets w) with
                                     | None => Bad KeyErr
                                     | Some n => match getattr (ents w d) n with Ok v => Ok (d, v) | Bad x => Bad x end
                                     end) ds with
              | Bad x => Bad x
              | Ok dls =>
                  match all_ok (fun p => against (ents w (fst (fst p))) (fst (fst p)) (snd (snd p)) (fst (snd p)) dls)
                               (combine (sensors w) (combine radii locs)) with
                  | Bad x => Bad x
                  | Ok css => Ok (concat css)
                  end
              end
          end
      end
  end.

Inductive op :=
| AddSensor (s : nat) (rname lname : string)
| AddTarget (d : nat) (lname : string) (new_rate : option Q)
| StartMover (m : nat) (moving : string) | StopMover (m : nat)   (* [moving]: the state activated *)
| SetAttr (e : nat) (n : string) (v : value)     (* an attribute or state is assigned *)
| Check (req : option (list nat)).
Inductive out := Did | Raised (e : err) | Saw (l : list compared).
Definition as_out (r : res unit) : out := match r with Ok _ => Did | Bad e => Raised e end.
Definition set_attr (w : st) (e : nat) (n : string) (v : value) : st :=
  mkW (fun k => if Nat.eqb k e
                then let o := ents w e in mkE (o_states o) (sset n v (o_attrs o)) (o_enter o) (o_exit o) (o_check o)
                else ents w k) (sensors w) (targets w).
Definition step (w : st) (o : op) : st * out :=
  match o with
  | AddSensor s r l => let '(w', x) := add_sensor w s r l in (w', as_out x)
  | AddTarget d l q => let '(w', x) := add_target w d l q in (w', as_out x)
  | StartMover m _ => let '(w', x) := start_mover w m in (w', as_out x)
  | StopMover m => (stop_mover w m, Did)
  | SetAttr e n v => (set_attr w e n v, Did)
  | Check req => (w, match run_detectable w req with Ok l => Saw l | Bad e => Raised e end)
  end.
Fixpoint run (w : st) (os : list op) : st * list (op * out) :=
  match os with
  | [] => (w, [])
  | o :: os' => let '(w1, x) := step w o in let '(w2, tr) := run w1 os' in (w2, (o, x) :: tr)
  end.
Definition init (es : nat -> ent) : st := mkW es [] [].
End Watch.
Arguments Ok {A}. Arguments Bad {A}.
