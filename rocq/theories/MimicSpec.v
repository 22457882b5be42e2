(** Vocabulary for mimic states. *)
From Verif Require Import Common ActiveModel MimicModel.

(** [c] mimics [s] directly. *)
Definition mimics (w : world) (c s : nat) : Prop := mlook c (w_mimic w) = Some s.
Definition free (w : world) (c : nat) : Prop := mlook c (w_mimic w) = None.
(** Following the mimics from [c] ends at [r]. *)
Inductive root (w : world) : nat -> nat -> Prop :=
| root_end c : free w c -> root w c c
| root_step c s r : mimics w c s -> root w s r -> root w c r.

Definition value (w : world) (c : nat) (v : Z) : Prop :=
  exists x, nth_error (w_cells w) c = Some x /\ m_val x = v.
Definition history (w : world) (c : nat) : list (Q * Z) :=
  match nth_error (w_cells w) c with Some x => m_hist x | None => [] end.
Definition records (w : world) (c : nat) : Prop :=
  exists x, nth_error (w_cells w) c = Some x /\ m_rec x = true.
(** The newest entry is the value [v] at time [now]. *)
Definition shows_now (now : Q) (v : Z) (h : list (Q * Z)) : Prop :=
  exists t h', h = (t, v) :: h' /\ t == now.

Section S.
Variable typ : nat -> Z -> bool.
(** The cell can be given the value [v]. *)
Definition accepts (w : world) (c : nat) (v : Z) : Prop :=
  exists x, nth_error (w_cells w) c = Some x /\ m_frozen x = false /\ typ c v = true.
(** Every mimic leads to a source, and can take on the value found there. *)
Definition healthy (w : world) : Prop :=
  forall c s, mimics w c s -> exists r v, root w c r /\ value w r v /\ accepts w c v.
End S.
