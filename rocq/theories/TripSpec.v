(** Vocabulary for journeys that are interrupted and resumed with the waypoints that
    remain, on top of the states of PathModel: a geometry in which the way to a waypoint
    from a point of a leg is the rest of the leg, and the use of
    Actor.get_remaining_waypoints that its documentation suggests. *)
From Verif Require Import Common PathModel PathSpec.

Section Trip.
Variable P : Type.
Variable dist : P -> P -> Q.
Variable along : P -> P -> Q -> P.
Variable tol : Q.
(** The same place, perhaps written differently *)
Variable same : P -> P -> Prop.

Record geometry : Prop := mkGeometry {
  g_refl : forall p, same p p;
  g_sym : forall p q, same p q -> same q p;
  g_trans : forall p q r, same p q -> same q r -> same p r;
  g_nonneg : forall p q, 0 <= dist p q;
  g_dist : forall p p' q, same p p' -> dist q p == dist q p';
  g_along : forall p p' q f f', same p p' -> f == f' -> same (along p q f) (along p' q f');
  g_from : forall p q, same (along p q 0) p;
  g_to : forall p q, same (along p q 1) q;
  g_shrinks : forall p q f, 0 <= f <= 1 -> dist q (along p q f) == (1 - f) * dist q p;
  g_rest : forall p q f g, 0 <= f <= 1 -> 0 <= g ->
    same (along (along p q f) q g) (along p q (f + g * (1 - f))) }.

(** The arc length [x] is not that of a waypoint, nor beyond one by at most [slack]. *)
Definition clear_of_corners (a : P) (wps : list P) (x slack : Q) : Prop :=
  forall n, (1 <= n <= length wps)%nat ->
    x < travelled dist a wps n \/ travelled dist a wps n + slack < x.

(** [p] is the place at arc length [x], before the end of its leg, and [rest] are the
    waypoints from there. *)
Definition place (a : P) (wps : list P) (x : Q) (p : P) (rest : list P) : Prop :=
  exists i u v f, nth_error (a :: wps) i = Some u /\ nth_error wps i = Some v /\
    same p (along u v f) /\ 0 <= f <= 1 /\
    travelled dist a wps i + f * dist v u == x /\ x < travelled dist a wps (S i) /\
    rest = skipn i wps.

(** A journey along [wps] with interruptions: [trip x s rest] says that after some of
    them [s] is reached, the arc length [x] has been travelled and [rest] is what
    get_remaining_waypoints gave at the last one.  Between two interruptions the state is
    activated, at any speed, with what remained, read and assigned any number of times,
    asked for what remains and deactivated. *)
Inductive trip (s0 : pst P) (wps : list P) : Q -> pst P -> list P -> Prop :=
| trip_start : trip s0 wps 0 s0 wps
| trip_on x s rest sp os rest' os' :
    trip s0 wps x s rest -> 0 < sp -> Forall looks_or_assigns os -> Forall looks os' ->
    let s1 := prun dist along tol (fst (pstep dist along tol s (PActivate sp rest))) os in
    let x' := x + sp * (p_now s1 - p_now s) in
    p_now s < p_now s1 -> x' < path_length dist (p_val s0) wps ->
    clear_of_corners (p_val s0) wps x' (sp * tol) ->
    snd (pstep dist along tol s1 PRemaining) = PRest rest' ->
    trip s0 wps x' (prun dist along tol (fst (pstep dist along tol s1 PDeactivate)) os') rest'.
End Trip.
Arguments geometry {P}. Arguments clear_of_corners {P}. Arguments place {P}. Arguments trip {P}.
