(** The ideal actor: every state has a value and the rates of the tasks that
    have it activated; the value grows with their sum as time passes, and
    reading changes nothing. *)
From Verif Require Import Common ActiveModel.

Record ideal := mkI { i_kind : skind; i_val : Q; i_act : list (nat * Q) }.
Record iactor := mkIA { i_now : Q; i_slots : list ideal }.

Definition grow (dt : Q) (x : ideal) : ideal :=
  mkI (i_kind x) (i_val x + dt * Qsum (map snd (i_act x))) (i_act x).
Definition has (t : nat) (x : ideal) : bool := existsb (fun p => Nat.eqb (fst p) t) (i_act x).
Definition without (t : nat) (x : ideal) : ideal :=
  mkI (i_kind x) (i_val x) (filter (fun p => negb (Nat.eqb (fst p) t)) (i_act x)).
Definition at_slot {X} (i : nat) (f : X -> X) (l : list X) : list X :=
  match nth_error l i with Some x => upd i (f x) l | None => l end.

(** Is activation by [t] allowed? *)
Definition free_for (t : nat) (x : ideal) : bool :=
  match i_kind x with
  | Shared => negb (has t x)
  | _ => match i_act x with [] => true | _ => false end
  end.

Fixpoint ideal_deactivate_list (a : iactor) (l : list nat) (t : nat) : iactor * aout :=
  match l with
  | [] => (a, AOk)
  | i :: l' =>
      match nth_error (i_slots a) i with
      | None => (a, AErr EKey)
      | Some x => if has t x
                  then ideal_deactivate_list (mkIA (i_now a) (at_slot i (without t) (i_slots a))) l' t
                  else (a, AErr (match i_kind x with Shared => EUpstage | _ => ESim end))
      end
  end.

Definition ideal_step (a : iactor) (o : aop) : iactor * aout :=
  match o with
  | AActivate i t rate =>
      match nth_error (i_slots a) i, rate with
      | Some x, Some r =>
          if free_for t x
          then (mkIA (i_now a) (at_slot i (fun x => mkI (i_kind x) (i_val x) (i_act x ++ [(t, r)])) (i_slots a)), AOk)
          else (a, AErr ESim)
      | _, _ => (a, AErr ESim)
      end
  | ADeactivate i t => ideal_deactivate_list a [i] t
  | ADeactivateStates l t => ideal_deactivate_list a l t
  | ADeactivateAll t => (mkIA (i_now a) (map (without t) (i_slots a)), AOk)
  | ARead i => match nth_error (i_slots a) i with
               | Some x => (a, AVal (i_val x))
               | None => (a, AErr EKey)
               end
  | AAssign i v => match nth_error (i_slots a) i with
                   | Some _ => (mkIA (i_now a) (at_slot i (fun x => mkI (i_kind x) v (i_act x)) (i_slots a)), AOk)
                   | None => (a, AErr EKey)
                   end
  | ATime t => if Qleb (i_now a) t
               then (mkIA t (map (grow (t - i_now a)) (i_slots a)), AOk)
               else (a, AIllegal)
  end.

Fixpoint ideal_run (a : iactor) (os : list aop) : iactor * list (aop * aout) :=
  match os with
  | [] => (a, [])
  | o :: os' => let '(a1, r) := ideal_step a o in
                let '(a2, tr) := ideal_run a1 os' in (a2, (o, r) :: tr)
  end.
Definition ideal_init (t0 : Q) (l : list (skind * Q)) : iactor :=
  mkIA t0 (map (fun p => mkI (fst p) (snd p) []) l).

(** Equal results, values compared as numbers. *)
Definition same_out (r r' : aout) : Prop :=
  match r, r' with AVal v, AVal w => v == w | _, _ => r = r' end.
Definition same_trace (tr tr' : list (aop * aout)) : Prop :=
  Forall2 (fun p q => fst p = fst q /\ same_out (snd p) (snd q)) tr tr'.

(** What the refinement asks of a schedule: activations name an active state
    and give a rate, and a state is assigned while some task has it active only
    right after it was read. *)
Definition allowed (a : iactor) (o : aop) : Prop :=
  match o with
  | AActivate i t rate => rate <> None /\
      match nth_error (i_slots a) i with Some x => i_kind x <> Plain | None => True end
  | AAssign i v => match nth_error (i_slots a) i with Some x => i_act x = [] | None => True end
  | _ => True
  end.
Inductive proper : iactor -> list aop -> Prop :=
| proper_nil a : proper a []
| proper_cons a o os : allowed a o -> proper (fst (ideal_step a o)) os -> proper a (o :: os)
| proper_assign a i v os :
    proper (fst (ideal_step a (AAssign i v))) os -> proper a (ARead i :: AAssign i v :: os).

Definition is_read (o : aop) : bool := match o with ARead _ => true | _ => false end.
Definition no_reads (os : list aop) : list aop := filter (fun o => negb (is_read o)) os.

(** ** Observations *)

(** Task [t] holds state [i]: the state is locked for it. *)
Definition holds (a : actor) (t i : nat) : Prop :=
  exists x, nth_error (a_slots a) i = Some x /\ In t (v_tasks x).
Definition kind_of (a : actor) (i : nat) : option skind :=
  match nth_error (a_slots a) i with Some x => Some (v_kind x) | None => None end.
(** Activations name an active state and give a rate; nothing else is asked. *)
Definition well_used (kinds : list skind) (o : aop) : Prop :=
  match o with
  | AActivate i t rate => rate <> None /\ nth_error kinds i <> Some Plain
  | _ => True
  end.
(** [actor.x] now reads as [v]. *)
Definition reads (a : actor) (i : nat) (v : Q) : Prop :=
  exists w, snd (astep a (ARead i)) = AVal w /\ w == v.
(** An operation that neither assigns, activates nor deactivates state [i]. *)
Definition quiet (i : nat) (o : aop) : bool :=
  match o with
  | AActivate j _ _ | ADeactivate j _ | AAssign j _ => negb (Nat.eqb i j)
  | ADeactivateStates _ _ | ADeactivateAll _ => false
  | ARead _ | ATime _ => true
  end.

(** What one task contributes to state [i] since it was last assigned, read off
    the operations and their results: [g_rate] is its rate while active. *)
Record gain := mkG { g_now : Q; g_rate : option Q; g_sum : Q }.
Definition gain_step (i t : nat) (g : gain) (p : aop * aout) : gain :=
  match p with
  | (AActivate j u (Some r), AOk) =>
      if Nat.eqb i j && Nat.eqb t u then mkG (g_now g) (Some r) (g_sum g) else g
  | (AAssign j v, AOk) => if Nat.eqb i j then mkG (g_now g) (g_rate g) 0 else g
  | (ADeactivate j u, AOk) => if Nat.eqb i j && Nat.eqb t u then mkG (g_now g) None (g_sum g) else g
  | (ADeactivateStates l u, AOk) =>
      if existsb (Nat.eqb i) l && Nat.eqb t u then mkG (g_now g) None (g_sum g) else g
  | (ADeactivateAll u, AOk) => if Nat.eqb t u then mkG (g_now g) None (g_sum g) else g
  | (ATime u, AOk) =>
      mkG u (g_rate g) (g_sum g + (u - g_now g) * match g_rate g with Some r => r | None => 0 end)
  | _ => g
  end.
Definition contribution (t0 : Q) (i t : nat) (tr : list (aop * aout)) : Q :=
  g_sum (fold_left (gain_step i t) tr (mkG t0 None 0)).
(** The tasks that appear in a trace. *)
Definition task_of (o : aop) : list nat :=
  match o with
  | AActivate _ t _ | ADeactivate _ t | ADeactivateStates _ t | ADeactivateAll t => [t]
  | _ => []
  end.
(** The value last assigned to [i]. *)
Definition last_assigned (v0 : Q) (i : nat) (tr : list (aop * aout)) : Q :=
  fold_left (fun v p => match p with
                        | (AAssign j w, AOk) => if Nat.eqb i j then w else v
                        | _ => v
                        end) tr v0.
(** A loop over several states ran to its end. *)
Definition loop_finished (p : aop * aout) : Prop :=
  match p with (ADeactivateStates _ _, r) => r = AOk | _ => True end.
