(** Properties C149 and C150: reservations with floats. *)
From Coq Require Import Qabs.
From Verif Require Import Common ReserveModel ReserveSpec RndModel RndSpec RndProofs RsvModel RsvSpec RsvProofs.

(** ** C149 *)
(** Without rounding this is the model of the Reserve area. *)
Theorem C149_exact keyof s os : f_run (fun x => x) keyof s os = run keyof s os.
Proof. revert s. induction os as [|o os IH]; intro s; [reflexivity|]. cbn [f_run run]. change (f_step (fun x => x) keyof s o) with (step keyof s o). destruct (step keyof s o). rewrite IH. reflexivity. Qed.
(** What is available is never negative. *)
Theorem C149_available u rnd keyof lvl c t0 os s tr : rounding u rnd -> 0 <= lvl -> Forall nonneg_op os -> f_run rnd keyof (init lvl c t0) os = (s, tr) -> 0 <= level s.
Proof.
  intros R L N H. pose proof (init_good keyof lvl c t0 L) as G. revert G N H. generalize (init lvl c t0) as s0. revert tr. induction os as [|o os IH]; intros tr s0 G N H; cbn [f_run] in H.
  - injection H as <- <-. apply G.
  - destruct (f_step rnd keyof s0 o) as [s1 r] eqn:Es. destruct (f_run rnd keyof s1 os) as [s2 tr2] eqn:Er. injection H as -> <-. inversion N; subst.
    eapply IH; [|eassumption|exact Er]. eapply (proj1 (f_step_good u rnd R keyof _ _ _ _ G ltac:(eassumption) Es)).
Qed.
(** Material is conserved, up to one rounding error for each call. *)
Theorem C149_conserved u rnd keyof B lvl c t0 os s tr : rounding u rnd -> 0 <= lvl -> Forall nonneg_op os -> levels_within rnd keyof B (init lvl c t0) os ->
  f_run rnd keyof (init lvl c t0) os = (s, tr) ->
  Qabs (level s + reserved s - (lvl + total_put tr - total_taken tr)) <= 2 * u * B * inject_Z (Z.of_nat (length os)) /\
  Qabs (real_level s - (lvl + total_put tr - total_taken tr)) <= 2 * u * B * inject_Z (Z.of_nat (length os)).
Proof. intros R L N W H. exact (proj2 (conserved u rnd R keyof B lvl c t0 os s tr L N W H)). Qed.
(** No more is promised than is there, up to rounding. *)
Theorem C149_promised u rnd keyof B lvl c t0 os s tr : rounding u rnd -> 0 <= lvl -> Forall nonneg_op os -> levels_within rnd keyof B (init lvl c t0) os ->
  f_run rnd keyof (init lvl c t0) os = (s, tr) -> reserved s <= real_level s + 4 * u * B * inject_Z (Z.of_nat (length os)).
Proof. intro R. exact (promised u rnd R keyof B lvl c t0 os s tr). Qed.
(** What is granted is what is not more than available, and what is taken is exactly what was reserved: no rounding. *)
Theorem C149_granted rnd keyof lvl c t0 os s tr r q ex s' o : f_run rnd keyof (init lvl c t0) os = (s, tr) -> f_step rnd keyof s (Reserve r q ex) = (s', o) ->
  (o = OReserved true <-> held keyof (keyof r) tr = None /\ q <= level s) /\ (o = OReserved true -> held keyof (keyof r) (tr ++ [(Reserve r q ex, o)]) = Some q /\ level s' = rnd (level s - q)).
Proof. apply f_reserve_result. Qed.
Theorem C149_taken rnd keyof lvl c t0 os s tr r s' o : f_run rnd keyof (init lvl c t0) os = (s, tr) -> f_step rnd keyof s (Take r) = (s', o) ->
  o = match held keyof (keyof r) tr with Some q => OTaken q | None => OValueError end /\ held keyof (keyof r) (tr ++ [(Take r, o)]) = None /\ level s' = level s.
Proof. apply f_take_result. Qed.
Definition dec (n : Z) : Q := rnd64 (inject_Z n / 10).
Definition id_key (z : Z) : Z := z.
Definition some_calls : list op := [Reserve 1 (dec 1) None; Reserve 2 (dec 2) (Some 3); Take 1; Put (dec 3) true; Fire].
Example C149_ex : Forall nonneg_op some_calls /\ levels_within rnd64 id_key 2 (init (dec 9) (Some 1) 0) some_calls /\
  map snd (snd (f_run rnd64 id_key (init (dec 9) (Some 1) 0) some_calls)) =
    [OReserved true; OReserved true; OTaken (dec 1); OPut; OExpired (mkTimer 3 2 1) (Some (mkEntry 2 (dec 2) 0 1))].
Proof.
  split; [repeat constructor; vm_compute; discriminate|]. split; [|vm_compute; reflexivity].
  cbn [levels_within some_calls]. repeat (split; [vm_compute; discriminate|]). exact I.
Qed.

(** Whole numbers and binary fractions are not rounded: if all amounts and times are multiples of 2^-a, and neither what is put in nor the
    times outgrow 53 digits, every call does what it would do without rounding ([Qred] only changes how a number is written). *)
Theorem C149_grid a keyof lvl c t0 os : 0 <= lvl -> 0 <= t0 -> grid a lvl -> grid a t0 -> Forall nonneg_op os -> Forall (grid_op a) os ->
  lvl + put_budget os <= Qpower 2 (53 - a) -> t0 + time_budget os <= Qpower 2 (53 - a) ->
  f_run rnd64 keyof (init lvl c t0) os = f_run Qred keyof (init lvl c t0) os.
Proof.
  intros L T Gl Gt N G HL HT. apply (run_same a keyof os lvl t0); try assumption. unfold init. split; [|split]; cbn.
  - split; [constructor|]. split; [ring|]. intros e [].
  - repeat split; try assumption; lra.
  - split; [exact Gt|]. split; [lra|]. intros t [].
Qed.
(** So nothing is lost or made. *)
Theorem C149_grid_conserved a keyof lvl c t0 os s tr : 0 <= lvl -> 0 <= t0 -> grid a lvl -> grid a t0 -> Forall nonneg_op os -> Forall (grid_op a) os ->
  lvl + put_budget os <= Qpower 2 (53 - a) -> t0 + time_budget os <= Qpower 2 (53 - a) -> f_run rnd64 keyof (init lvl c t0) os = (s, tr) ->
  level s + reserved s == lvl + total_put tr - total_taken tr /\ real_level s == lvl + total_put tr - total_taken tr.
Proof.
  intros L T Gl Gt N G HL HT H. rewrite (C149_grid a) in H by assumption. destruct (within_some Qred keyof (init lvl c t0) os) as [B W].
  destruct (conserved 0 Qred red_rounding keyof B lvl c t0 os s tr L N W H) as (_ & E1 & E2).
  assert (Z0 : 2 * 0 * B * inject_Z (Z.of_nat (length os)) == 0) by ring. rewrite Z0 in E1, E2. split; [apply abs_le_0 in E1; lra|apply abs_le_0 in E2; lra].
Qed.
Definition half_calls : list op := [Reserve 1 (5 # 2) None; Reserve 2 1 (Some (7 # 2)); Wait 3; Put (1 # 2) false; Take 1; Fire].
Example C149_ex_grid : Forall nonneg_op half_calls /\ Forall (grid_op 1) half_calls /\ grid 1 8 /\ 8 + put_budget half_calls <= Qpower 2 (53 - 1) /\
  0 + time_budget half_calls <= Qpower 2 (53 - 1) /\
  let '(s, tr) := f_run rnd64 id_key (init 8 (Some 9) 0) half_calls in
  map snd tr = [OReserved true; OReserved true; OWaited; OPut; OTaken (5 # 2); OExpired (mkTimer (7 # 2) 2 1) (Some (mkEntry 2 1 0 1))] /\ level s == 6.
Proof.
  split; [repeat constructor; vm_compute; discriminate|]. split.
  - constructor; [split; [exists 5%Z; reflexivity|discriminate]|]. constructor; [split; [exists 2%Z; reflexivity|intros d E; injection E as <-; exists 7%Z; reflexivity]|].
    constructor; [exists 6%Z; reflexivity|]. constructor; [exists 1%Z; reflexivity|]. repeat constructor.
  - split; [exists 16%Z; reflexivity|]. split; [vm_compute; discriminate|]. split; [vm_compute; discriminate|]. vm_compute. split; reflexivity.
Qed.

(** ** C150 *)
(** A reservation made and cancelled leaves more in the container than there was, and than it can hold. *)
Theorem C150_cancel_refuted : let '(s, tr) := f_run rnd64 id_key (init (dec 9) (Some (dec 9)) 0) [Reserve 1 (dec 3) None; Cancel 1] in
  map snd tr = [OReserved true; OCancelled true] /\ queued s = [] /\ dec 9 < level s /\ real_level s < level s /\
  (* and all of that can be promised *)
  snd (f_step rnd64 id_key s (Reserve 2 (level s) None)) = OReserved true.
Proof. vm_compute. repeat split. Qed.
(** Or less, so that what was there before can not be reserved any more. *)
Theorem C150_lost_refuted : let '(s, tr) := f_run rnd64 id_key (init (dec 9) (Some (dec 9)) 0) [Reserve 1 (dec 2) None; Cancel 1; Reserve 2 (dec 9) None] in
  map snd tr = [OReserved true; OCancelled true; OReserved false] /\ queued s = [].
Proof. vm_compute. repeat split. Qed.
(** What was taken out of a full container can not be put back. *)
Theorem C150_put_back_refuted : map snd (snd (f_run rnd64 id_key (init (dec 9) (Some (dec 9)) 0) [Reserve 1 (dec 3) None; Take 1; Put (dec 3) false])) =
  [OReserved true; OTaken (dec 3); OValueError].
Proof. vm_compute. reflexivity. Qed.
(** Without rounding all of these do what they should. *)
Theorem C150_exact keyof lvl c t0 r q : 0 <= q <= lvl -> lvl <= c ->
  let '(s, tr) := run keyof (init lvl (Some c) t0) [Reserve r q None; Cancel r] in map snd tr = [OReserved true; OCancelled true] /\ level s == lvl.
Proof.
  intros [H0 H1] H2. cbn [run step]. unfold do_reserve, init. cbn [level queued lookup find]. assert (Qltb lvl q = false) as -> by (apply Qltb_ge; exact H1).
  unfold do_cancel, lookup, identical. cbn [queued app find filter e_req]. rewrite !Z.eqb_refl. cbn [map snd level e_qty]. split; [reflexivity|ring].
Qed.

Print Assumptions C149_exact.
Print Assumptions C149_available.
Print Assumptions C149_conserved.
Print Assumptions C149_promised.
Print Assumptions C149_granted.
Print Assumptions C149_taken.
Print Assumptions C150_cancel_refuted.
Print Assumptions C150_lost_refuted.
Print Assumptions C150_put_back_refuted.
Print Assumptions C150_exact.

Print Assumptions C149_grid.
Print Assumptions C149_grid_conserved.
