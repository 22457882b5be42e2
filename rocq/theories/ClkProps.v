(** Properties C151 and C152: printed clock times with floats. *)
From Coq Require Import Qround Qabs String.
From Verif Require Import Common UnitsModel RndModel RndSpec RndProofs ClkModel ClkSpec ClkProofs.
Local Open Scope string_scope.
Local Open Scope Q_scope.

(** ** C151 *)
(** The clock in seconds. *)
Definition err64 (T : Q) : Q := 4 * u64 * (T + 86400).
(** What is shown is a time of day, and it is the time of the clock without its fraction of a second, up to rounding. *)
Theorem C151_shown now tu p c : 0 <= now -> f_pretty_now rnd64 now tu = Some p -> unit_seconds tu = Some c -> now * c <= inject_Z (2 ^ 40) ->
  of_day p /\ exists P, shown p = Some P /\ inject_Z P <= now * c + err64 (now * c) /\ now * c < inject_Z P + 1 + err64 (now * c).
Proof.
  intros H0 Hp Hc HT. unfold f_pretty_now in Hp. cbv zeta in Hp. destruct (existsb _ _); [|discriminate].
  destruct (f_factor rnd64 (normal (match tu with None => "hr" | Some u => u end))) as [f|] eqn:Ef.
  - injection Hp as <-. destruct (factor_error tu f Ef c Hc) as [C1 C2]. apply clock_error; tauto.
  - injection Hp as <-. exfalso. assert (X : exists f, f_factor rnd64 (normal (match tu with None => "hr" | Some u => u end)) = Some f); [|destruct X as [f X]; congruence].
    clear - Hc. destruct tu as [v|]; [|eexists; reflexivity]. unfold unit_seconds in Hc. cbv zeta in Hc.
    assert (N : forall l n, existsb (String.eqb (lower v)) l = true -> (forall x, In x l -> match lookup TIME_ALTERNATES x with Some y => y | None => x end = n) -> normal v = n).
    { intros l n E A. apply existsb_exists in E. destruct E as (x & Hx & Ex). apply String.eqb_eq in Ex. unfold normal. rewrite Ex. apply A. exact Hx. }
    destruct (existsb (String.eqb (lower v)) ["s"; "second"; "seconds"]) eqn:E1.
    + rewrite (N _ "s" E1); [eexists; reflexivity|]. intros x [<-|[<-|[<-|[]]]]; reflexivity.
    + destruct (existsb (String.eqb (lower v)) ["min"; "minute"; "minutes"]) eqn:E2.
      * rewrite (N _ "min" E2); [eexists; reflexivity|]. intros x [<-|[<-|[<-|[]]]]; reflexivity.
      * destruct (existsb (String.eqb (lower v)) ["hr"; "hour"; "hours"]) eqn:E3; [|discriminate].
        rewrite (N _ "hr" E3); [eexists; reflexivity|]. intros x [<-|[<-|[<-|[]]]]; reflexivity.
Qed.
(** So it is exactly right unless the clock is next to a whole second. *)
Theorem C151_right now tu p c : 0 <= now -> f_pretty_now rnd64 now tu = Some p -> unit_seconds tu = Some c -> now * c <= inject_Z (2 ^ 40) ->
  (forall n : Z, err64 (now * c) < Qabs (now * c - inject_Z n)) -> shown p = Some (Qfloor (now * c)).
Proof.
  intros H0 Hp Hc HT Far. destruct (C151_shown now tu p c H0 Hp Hc HT) as (_ & P & Es & L & U). rewrite Es. f_equal. symmetry. set (e := err64 (now * c)) in *. set (T := now * c) in *.
  apply floor_unique.
  - pose proof (Far P) as F. destruct (Qlt_le_dec T (inject_Z P)) as [B|B]; [|exact B]. exfalso. rewrite Qabs_neg in F by lra. lra.
  - pose proof (Far (P + 1)%Z) as F. rewrite inject_Z_plus in F. change (inject_Z 1) with 1 in F. destruct (Qlt_le_dec T (inject_Z P + 1)) as [B|B]; [exact B|]. exfalso. rewrite Qabs_pos in F by lra. lra.
Qed.
(** Without rounding this is the model of the Units area. *)
Theorem C151_exact now tu daily p : f_pretty_now (fun x => x) now tu = Some p -> match p, pretty_now now tu daily with
  | PClock d h m s, PClock d' h' m' s' => d = d' /\ h = h' /\ m = m' /\ s = s' | PFails, PFails => True | _, _ => False end.
Proof.
  unfold f_pretty_now, pretty_now. cbv zeta. set (v := match tu with None => "hr" | Some u => u end).
  destruct (existsb (String.eqb match lookup TIME_ALTERNATES (lower v) with Some x => x | None => v end) STANDARD_TIMES) eqn:E; [|discriminate].
  assert (N : normal v = "s" \/ normal v = "min" \/ normal v = "hr").
  { apply existsb_exists in E. destruct E as (x & Hx & Ex). apply String.eqb_eq in Ex. unfold normal. destruct (lookup TIME_ALTERNATES (lower v)) as [y|] eqn:El.
    - rewrite Ex. destruct Hx as [<-|[<-|[<-|[]]]]; auto.
    - rewrite Ex. destruct Hx as [<-|[<-|[<-|[]]]]; cbn; auto. }
  assert (U : unit_convert now v "hr" = match f_factor (fun x => x) (normal v) with Some f => Some (now * f) | None => None end).
  { unfold unit_convert. change (normal "hr") with "hr". destruct N as [-> | [-> | ->]]; vm_compute; reflexivity. }
  rewrite U. destruct (f_factor (fun x => x) (normal v)) as [f|]; intro H; injection H as <-; [|exact I].
  unfold f_clock.
  assert (Ed : now * f - inject_Z (Qfloor (now * f / 24) * 24) == now * f - inject_Z (Qfloor (now * f / 24)) * 24) by (rewrite inject_Z_mult; reflexivity).
  assert (Es : Qfloor ((now * f - inject_Z (Qfloor (now * f / 24) * 24)) * 3600) = Qfloor ((now * f - inject_Z (Qfloor (now * f / 24)) * 24) * 3600)) by (apply Qfloor_comp; rewrite Ed; reflexivity).
  rewrite Es. repeat split.
Qed.
Example C151_ex : f_pretty_now rnd64 (1501 # 2) (Some "minutes") = Some (PClock 0 12 30 30) /\ unit_seconds (Some "minutes") = Some 60 /\
  f_pretty_now rnd64 (rnd64 (123456789 # 1000)) (Some "s") = Some (PClock 1 10 17 36) /\ f_pretty_now rnd64 50 None = Some (PClock 2 2 0 0).
Proof. vm_compute. repeat split. Qed.
Example C151_ex_right : forall n : Z, err64 ((90061 # 120) * 60) < Qabs ((90061 # 120) * 60 - inject_Z n).
Proof.
  intro n. assert (E : err64 ((90061 # 120) * 60) < 1 # 4) by (vm_compute; reflexivity). eapply Qlt_le_trans; [exact E|].
  destruct (Z_le_gt_dec n 45030) as [L|G].
  - rewrite Zle_Qle in L. change (inject_Z 45030) with 45030 in L. rewrite Qabs_pos by lra. lra.
  - assert (G' : (45031 <= n)%Z) by lia. rewrite Zle_Qle in G'. change (inject_Z 45031) with 45031 in G'. rewrite Qabs_neg by lra. lra.
Qed.

(** ** C152 *)
(** 31 minutes after the start the clock shows 00:30:59. *)
Theorem C152_minutes_refuted : f_pretty_now rnd64 31 (Some "min") = Some (PClock 0 0 30 59).
Proof. vm_compute. reflexivity. Qed.
(** 115 seconds after the start it shows 00:01:54. *)
Theorem C152_seconds_refuted : f_pretty_now rnd64 115 (Some "s") = Some (PClock 0 0 1 54).
Proof. vm_compute. reflexivity. Qed.
(** Without rounding: *)
Theorem C152_exact : pretty_now 31 (Some "min") None = PClock 0 0 31 0 /\ pretty_now 115 (Some "s") None = PClock 0 0 1 55.
Proof. vm_compute. split; reflexivity. Qed.

Print Assumptions C151_shown.
Print Assumptions C151_right.
Print Assumptions C151_exact.
Print Assumptions C152_minutes_refuted.
Print Assumptions C152_seconds_refuted.
Print Assumptions C152_exact.
