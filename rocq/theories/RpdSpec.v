(** When a rehearsal is expected to foretell the run, with floats. *)
From Verif Require Import Common StateModel ActiveModel KnowledgeModel PredModel.
(** A rounding that keeps order, leaves its results as they are, and writes equal results alike. *)
Record clock_rounding (rnd : Q -> Q) : Prop := {
  c_mono : forall x y, x <= y -> rnd x <= rnd y;
  c_idem : forall x, rnd (rnd x) == rnd x;
  c_canon : forall x y, rnd x == rnd y -> rnd x = rnd y }.
(** States do not set the clock. *)
Definition keeps_clock (act : actor -> aop -> actor * aout) : Prop :=
  forall a o, match o with ATime _ => False | _ => True end -> a_now (fst (act a o)) = a_now a.
(** As [tidy] of PredSpec, but the members of an Any are not asked whether they are complete. *)
Definition askable (e : pev) : list nat := match e with EAny _ => [] | _ => ids e end.
Inductive tidy_f : nat -> list nat -> list nat -> prog -> Prop :=
| F_ret n free cur : tidy_f n free cur Ret
| F_fail n free cur : tidy_f n free cur Fail
| F_do n free cur o k : (forall r, tidy_f n free cur (k r)) -> tidy_f n free cur (Do o k)
| F_now n free cur k : (forall t, tidy_f n free cur (k t)) -> tidy_f n free cur (Now k)
| F_new n free cur d r k : (r = None \/ r = Some d) -> tidy_f (S n) (n :: free) cur (k (Some n)) -> tidy_f n free cur (k None) -> tidy_f n free cur (New d r k)
| F_done n free cur i k : In i (cur ++ free) -> (forall b, tidy_f n free cur (k b)) -> tidy_f n free cur (Done i k)
| F_yield n free cur e k : ids e <> [] -> NoDup (ids e) -> incl (ids e) free -> (forall a, k a = k ANone) ->
    tidy_f n (filter (fun i => negb (existsb (Nat.eqb i) (ids e))) free) (askable e) (k ANone) -> tidy_f n free cur (Yield e k).
