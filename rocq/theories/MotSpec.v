(** Vocabulary for the sensor motion manager. *)
From Verif Require Import Common MotModel.

(** What a sensor was told about a mover, and when: true for an entry. *)
Fixpoint told (s m : nat) (l : list (Q * out)) : list (Q * bool) :=
  match l with
  | [] => []
  | (t, Entered s' m') :: l' => if Nat.eqb s s' && Nat.eqb m m' then (t, true) :: told s m l' else told s m l'
  | (t, Exited s' m') :: l' => if Nat.eqb s s' && Nat.eqb m m' then (t, false) :: told s m l' else told s m l'
  | _ :: l' => told s m l'
  end.
(** Taking turns, [next] being what comes first. *)
Fixpoint alternates (next : bool) (l : list (Q * bool)) : Prop :=
  match l with
  | [] => True
  | x :: l' => snd x = next /\ alternates (negb next) l'
  end.
Fixpoint increasing (l : list (Q * bool)) : Prop :=
  match l with
  | [] => True
  | x :: l' => (forall y, In y l' -> fst x < fst y) /\ increasing l'
  end.
Definition same (a b : list (Q * bool)) : Prop := Forall2 (fun x y => fst x == fst y /\ snd x = snd y) a b.

(** The moments that crossings predicted at time [now] give to tell about, for a mover
    that is already in view or not: crossings that are over are left out, an entry that
    is past is told now, unless it is known. *)
Fixpoint moments (now : Q) (in_view : bool) (l : list crossing) : list (Q * bool) :=
  match l with
  | [] => []
  | ((k1, t1), (k2, t2)) :: l' =>
      if Qleb t1 now && Qltb t2 now then moments now in_view l' else
      (match k1 with
       | START_INSIDE => if in_view then [] else [(now, true)]
       | _ => if Qleb t1 now then (if in_view then [] else [(now, true)]) else [(t1, true)]
       end) ++
      (match k2 with EXIT => [(t2, false)] | _ => [] end) ++ moments now in_view l'
  end.
(** They can be told: one after the other, in turn, every exit yet to come. *)
Definition orderly (now : Q) (in_view : bool) (l : list crossing) : Prop :=
  increasing (moments now in_view l) /\ alternates (negb in_view) (moments now in_view l) /\
  forall t, In (t, false) (moments now in_view l) -> now < t.

(** Whether the sensor considers the mover to be in range, from what it was told. *)
Definition considered (s m : nat) (l : list (Q * out)) : bool := last (map snd (told s m l)) false.

Section MotSpec.
Variable L : Type.
Variable intersection : L -> L -> Q -> L -> Q -> res (list (Q * kind) * Q).
Notation st := (st L).
Definition moving (x : st) (m : nat) : Prop := In m (map fst (movers L x)).
(** Some motion of [m] has just been started and its processes have not begun. *)
Definition just_started (x : st) (m : nat) : Prop :=
  exists i p, In (UInit i) (urgent L x) /\ nth_error (procs L x) i = Some p /\ p_m p = m.
(** How the manager has to be used: predictions are orderly given what is in view
    (movers start where they were, sensors stay); no motion is ended in the instant it
    begins; no sensor is added twice. *)
Definition fair (x : st) (o : op L) : Prop :=
  match o with
  | Start _ m speed ws =>
      detect L x m = Some true -> ~ moving x m -> forall s l, In s (sensors L x) ->
      process_pair L intersection speed ws (now L x) (sensor_at L x s) = Ok l ->
      orderly (now L x) (viewed (in_view L x) m s) l
  | Stop _ m | SetDetect _ m false => ~ just_started x m
  | AddSensor _ s =>
      ~ In s (sensors L x) /\
      forall m speed ws start l, In (m, (speed, ws, start)) (movers L x) ->
      process_pair L intersection speed ws start (sensor_at L x s) = Ok l ->
      orderly (now L x) (viewed (in_view L x) m s) l
  | _ => True
  end.
Fixpoint fair_run (x : st) (ops : list (op L)) : Prop :=
  match ops with
  | [] => True
  | o :: ops' => fair x o /\ fair_run (fst (step L intersection x o)) ops'
  end.
(** Nothing is left to do at this time. *)
Definition quiet (x : st) : Prop :=
  urgent L x = [] /\ forall p d, In p (procs L x) -> due_at p = Some d -> ~ d == now L x.
(** The operations that end a motion of [m]. *)
Definition ends (m : nat) (o : op L) : Prop := o = Stop L m \/ o = SetDetect L m false.
End MotSpec.

(** Crossings that follow each other, from [lo] on: they begin with an entry and end with
    an exit, but the first may begin with the motion and the last end with it. *)
Fixpoint follow (first : bool) (lo : Q) (l : list crossing) : Prop :=
  match l with
  | [] => True
  | ((k1, t1), (k2, t2)) :: l' =>
      (k1 = ENTER /\ lo < t1 \/ first = true /\ k1 = START_INSIDE /\ t1 == lo) /\
      t1 < t2 /\ (k2 = EXIT \/ l' = [] /\ k2 = END_INSIDE) /\ follow false t2 l'
  end.
