(** Property C147, further: journeys whose times are whole numbers or binary fractions. *)
From Coq Require Import Qabs Qpower Lqa.
From Verif Require Import Common ActiveModel PathModel RndModel RndSpec RndProofs RwySpec RwyProofs.

(** If the times of the legs, of departure and of the read are multiples of 2^-a, which the tolerance is far below, then floats
    give the right leg and the right part of it, rounded once, whatever the clock shows. *)
Theorem C147_grid a P dist along tol speed t0 from wps : 0 < speed -> 0 <= tol -> tol <= Qpower 2 (- (a + 1)) ->
  moving P dist from wps -> legs_all P dist (grid a) speed from wps -> grid a t0 -> len P dist from wps / speed <= Qpower 2 (51 - a) ->
  let s := fst (f_depart rnd64 P dist along tol t0 from speed wps) in
  forall t v, grid a t -> t0 < t -> t <= t0 + len P dist from wps / speed -> exists x y f, whereat P dist speed from wps (t - t0) x y f /\
    f_pread rnd64 P dist along tol (mkP t v (p_act s)) = (mkP t (along x y (rnd64 f)) (p_act s), PVal (along x y (rnd64 f))).
Proof. intros. apply (read_grid P dist along tol a speed); assumption. Qed.
(** There is one such place, between the ends of its leg; and it is the last waypoint when the time is up. *)
Theorem C147_where P dist speed wps c e x y f : 0 < speed -> moving P dist c wps -> whereat P dist speed c wps e x y f ->
  0 < f <= 1 /\ (forall x' y' f', whereat P dist speed c wps e x' y' f' -> x' = x /\ y' = y /\ f' == f) /\
  (e == len P dist c wps / speed -> y = last wps c /\ f == 1).
Proof.
  intros Hs M W. split; [eapply where_part; eassumption|]. split; [intros x' y' f' W'; apply (where_one P dist speed wps c e _ _ _ _ _ _ Hs M W' W)|].
  intro E. apply (where_end P dist speed Hs wps c e x y f M E W).
Qed.
(** If the distances are multiples of some 2^-b as well, the timeout of the travel time that is computed beforehand ends when the last
    waypoint is reached, and a read then gives that waypoint as the end of its leg. *)
Theorem C147_grid_due a b P dist along tol speed t0 from wps : 0 < speed -> 0 <= tol -> tol <= Qpower 2 (- (a + 1)) -> wps <> [] ->
  moving P dist from wps -> legs_all P dist (grid a) speed from wps -> legs_all P dist (grid b) 1 from wps -> grid a t0 -> 0 <= t0 ->
  len P dist from wps / speed <= Qpower 2 (51 - a) -> len P dist from wps <= Qpower 2 (53 - b) -> t0 + len P dist from wps / speed <= Qpower 2 (53 - a) ->
  let s := fst (f_depart rnd64 P dist along tol t0 from speed wps) in
  let due := f_after rnd64 t0 (f_travel_time rnd64 P dist from wps speed) in
  due == t0 + len P dist from wps / speed /\
  forall v, exists x f, f == 1 /\ snd (f_pread rnd64 P dist along tol (mkP due v (p_act s))) = PVal (along x (last wps from) (rnd64 f)).
Proof.
  intros Hs H0 H1 N M Ga Gb Gt Ht B1 B2 B3 s due. assert (E : due == t0 + len P dist from wps / speed) by (eapply due_grid; eassumption). split; [exact E|]. intro v.
  assert (Gd : grid a due) by (apply (grid_comp _ (t0 + len P dist from wps / speed)); [symmetry; exact E|apply grid_add; [exact Gt|apply legs_grid; assumption]]).
  assert (Lp : 0 < len P dist from wps / speed).
  { destruct wps as [|w wps]; [congruence|]. cbn [len moving] in *. destruct M as [M1 M2]. pose proof (len_pos P dist wps w M2). apply Qlt_shift_div_l; lra. }
  destruct (read_grid P dist along tol a speed Hs H0 H1 t0 from wps M Ga Gt B1 due v Gd) as (x & y & f & W & Rd); [lra|lra|].
  destruct (where_end P dist speed Hs wps from (due - t0) x y f M ltac:(lra) W) as [-> F]. exists x, f. split; [exact F|]. unfold s. rewrite Rd. reflexivity.
Qed.
Definition far_line (a b : Q) : Q := Qabs (a - b).
Definition far_along (a b f : Q) : Q := a + (b - a) * f.
Definition far_tol : Q := rnd64 (1 # 1000000000000).
(** From 0 by 1 to 4, at speed 1/2, from time 100000000.5 on, at which the bound of C147_arrival64 is long passed; read on the way
    and on arrival. *)
Example C147_ex_grid : 0 <= far_tol /\ far_tol <= Qpower 2 (- (1 + 1)) /\ moving Q far_line 0 [1; 4] /\ legs_all Q far_line (grid 1) (1 # 2) 0 [1; 4] /\
  grid 1 (200000001 # 2) /\ len Q far_line 0 [1; 4] / (1 # 2) <= Qpower 2 (51 - 1) /\
  legs_all Q far_line (grid 0) 1 0 [1; 4] /\ (200000001 # 2) + len Q far_line 0 [1; 4] / (1 # 2) <= Qpower 2 (53 - 1) /\
  (let s := fst (f_depart rnd64 Q far_line far_along far_tol (200000001 # 2) 0 (1 # 2) [1; 4]) in
   exists p q, snd (f_pread rnd64 Q far_line far_along far_tol (f_at Q ((200000001 # 2) + (7 # 2)) s)) = PVal p /\ p == (7 # 4) /\
     snd (f_pread rnd64 Q far_line far_along far_tol (f_at Q ((200000001 # 2) + 8) s)) = PVal q /\ q == 4).
Proof.
  split; [vm_compute; discriminate|]. split; [vm_compute; discriminate|]. split; [vm_compute; repeat split|].
  split; [split; [exists 4%Z; reflexivity|split; [exists 12%Z; reflexivity|exact I]]|]. split; [exists 200000001%Z; reflexivity|]. split; [vm_compute; discriminate|].
  split; [split; [exists 1%Z; reflexivity|split; [exists 3%Z; reflexivity|exact I]]|]. split; [vm_compute; discriminate|].
  cbv zeta. eexists. eexists. split; [vm_compute; reflexivity|]. split; [vm_compute; reflexivity|]. split; vm_compute; reflexivity.
Qed.


Print Assumptions C147_grid.
Print Assumptions C147_grid_due.
Print Assumptions C147_where.
