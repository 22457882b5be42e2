(** Model of the location changing states: CartesianLocationChangingState
    (states.py:509-699) and GeodeticLocationChangingState (states.py:702-913),
    which share everything but the geometry, and of waypoint_time_and_dist
    (utils.py:154-175).

    [dist p q] is the distance the code computes between two locations
    (data_types.py:231-246, or the stage model's distance_and_bearing);
    [along p q f] the point it computes at fraction [f] of the leg from [p] to
    [q]; [tol] is the tolerance of [_get_index].  Locks, recording and the
    motion manager are modelled elsewhere. *)
From Verif Require Import Common.

Section Path.
Variable P : Type.
Variable dist : P -> P -> Q.
Variable along : P -> P -> Q -> P.
Variable tol : Q.

(** One waypoint's part of [path_data]: time, distance, start and the waypoint. *)
Record leg := mkLeg { l_time : Q; l_dist : Q; l_start : P; l_end : P }.

(** states.py:555-563, 751-764: the loop over the waypoints. *)
Fixpoint setup (speed : Q) (current : P) (wps : list P) : list leg :=
  match wps with
  | [] => []
  | w :: wps' => mkLeg (dist w current / speed) (dist w current) current w :: setup speed w wps'
  end.

(** states.py:599-609, 793-803.  The result: the leg, its position in the list
    and the time at which it began; [None]: SimulationError. *)
Fixpoint get_index (legs : list leg) (elapsed sum_t : Q) (i : nat) : option (leg * nat * Q) :=
  match legs with
  | [] => None
  | l :: legs' =>
      let s := sum_t + l_time l in
      if Qleb elapsed (s + tol) then Some (l, i, s - l_time l) else get_index legs' elapsed s (S i)
  end.

(** The active data; [k_legs] is None when [_setup] raised (speed zero). *)
Record track := mkT { k_start : Q; k_speed : Q; k_wps : list P; k_legs : option (list leg) }.
Record pst := mkP { p_now : Q; p_val : P; p_act : option track }.

Inductive pout := PVal (p : P) | PRest (l : list P) | POk | PSim | PZero | PIllegal.

(** [_setup]; division by a zero speed raises as soon as there is a waypoint. *)
Definition do_setup (s : pst) (k : track) : option track :=
  match k_legs k with
  | Some _ => Some k
  | None =>
      if Qeqb (k_speed k) 0 && negb (match k_wps k with [] => true | _ => false end) then None
      else Some (mkT (p_now s) (k_speed k) (k_wps k) (Some (setup (k_speed k) (p_val s) (k_wps k))))
  end.

(** [_active] (states.py:627-684, 819-889).  Note that the start time was taken
    from the data before [_setup]. *)
Definition pread (s : pst) : pst * pout :=
  match p_act s with
  | None => (s, PVal (p_val s))
  | Some k =>
      match do_setup s k with
      | None => (s, PZero)
      | Some k' =>
          let s1 := mkP (p_now s) (p_val s) (Some k') in
          let elapsed := p_now s - k_start k in
          if Qltb elapsed 0 then (s1, PSim)
          else if Qeqb elapsed 0 then (s1, PVal (p_val s))
          else
            match get_index (match k_legs k' with Some l => l | None => [] end) elapsed 0 0 with
            | None => (s1, PSim)
            | Some (l, _, t0) =>
                if Qeqb (l_time l) 0 then (s1, PZero)
                else let q := along (l_start l) (l_end l) ((elapsed - t0) / l_time l) in
                     (mkP (p_now s) q (Some k'), PVal q)
            end
      end
  end.

Inductive pop :=
| PActivate (speed : Q) (wps : list P)    (* activate_state; the state is not active *)
| PDeactivate                             (* deactivate_state by the holder *)
| PRead
| PRemaining                              (* _get_remaining_waypoints *)
| PAssign (p : P)
| PTime (t : Q).

Definition pstep (s : pst) (o : pop) : pst * pout :=
  match o with
  | PActivate speed wps =>
      match p_act s with
      | Some _ => (s, PSim)               (* locked *)
      | None =>
          let '(s1, r) := pread (mkP (p_now s) (p_val s) (Some (mkT (p_now s) speed wps None))) in
          (s1, match r with PVal _ => POk | e => e end)
      end
  | PDeactivate =>                        (* actor.py:408-425 *)
      match p_act s with
      | None => (s, PSim)
      | Some _ =>
          let '(s1, r) := pread s in
          match r with
          | PVal _ => (mkP (p_now s1) (p_val s1) None, POk)
          | e => (s1, e)
          end
      end
  | PRead => pread s
  | PRemaining =>                         (* states.py:611-625, 805-817; actor.py:1204-1221; called while active *)
      match p_act s with
      | Some k =>
          match k_legs k with
          | Some legs => match get_index legs (p_now s - k_start k) 0 0 with
                         | Some (_, i, _) => (s, PRest (skipn i (k_wps k)))
                         | None => (s, PSim)
                         end
          | None => (s, PIllegal)
          end
      | None => (s, PIllegal)
      end
  | PAssign p => (mkP (p_now s) p (p_act s), POk)
  | PTime t => if Qleb (p_now s) t then (mkP t (p_val s) (p_act s), POk) else (s, PIllegal)
  end.

Fixpoint prun (s : pst) (os : list pop) : pst :=
  match os with [] => s | o :: os' => prun (fst (pstep s o)) os' end.

(** utils.py:154-175: (time, distance); [None]: division by zero. *)
Fixpoint total_dist (current : P) (wps : list P) (acc : Q) : Q :=
  match wps with
  | [] => acc
  | w :: wps' => total_dist w wps' (acc + dist w current)
  end.
Definition waypoint_time_and_dist (start : P) (wps : list P) (speed : Q) : option (Q * Q) :=
  let d := total_dist start wps 0 in
  if Qeqb speed 0 then None else Some (d / speed, d).
End Path.

Arguments mkLeg {P}. Arguments l_time {P}. Arguments l_dist {P}. Arguments l_start {P}. Arguments l_end {P}.
Arguments setup {P}. Arguments get_index {P}. Arguments mkT {P}. Arguments k_start {P}. Arguments k_speed {P}.
Arguments k_wps {P}. Arguments k_legs {P}. Arguments mkP {P}. Arguments p_now {P}. Arguments p_val {P}.
Arguments p_act {P}. Arguments PVal {P}. Arguments PRest {P}. Arguments POk {P}. Arguments PSim {P}.
Arguments PZero {P}. Arguments PIllegal {P}. Arguments do_setup {P}. Arguments pread {P}. Arguments pstep {P}.
Arguments prun {P}. Arguments PActivate {P}. Arguments PDeactivate {P}. Arguments PRead {P}. Arguments PRemaining {P}.
Arguments PAssign {P}. Arguments PTime {P}. Arguments total_dist {P}. Arguments waypoint_time_and_dist {P}.

(** ** Cartesian geometry (states.py:655-672, math_utils.py) *)
Record pt := mkPt { px : Q; py : Q; pz : Q }.
Definition straight (p q : pt) (f : Q) : pt :=
  mkPt (px p + f * (px q - px p)) (py p + f * (py q - py p)) (pz p + f * (pz q - pz p)).
Definition cart_tol : Q := 1 # 1000000000000.
Definition geo_tol : Q := 1 # 10000.

(** ** Geodetic geometry (states.py:751-757, 867-878): a location is a position
    and an altitude; [gdist], [bearing] and [travel] are the stage model's
    distance_and_bearing and point_from_bearing_dist, whatever they compute. *)
Section Geodetic.
Variable LL : Type.
Variables gdist bearing : LL -> LL -> Q.
Variable travel : LL -> Q -> Q -> LL.
Definition geo_dist (w c : LL * Q) : Q := gdist (fst c) (fst w).
Definition geo_along (p q : LL * Q) (f : Q) : LL * Q :=
  (travel (fst p) (bearing (fst p) (fst q)) (f * gdist (fst p) (fst q)),
   snd p + (snd q - snd p) * f).
End Geodetic.
Arguments geo_dist {LL}. Arguments geo_along {LL}.
