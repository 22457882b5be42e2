(** Lemmas for UnitsProps. *)
From Coq Require Import String Ascii Qround Qabs.
From Verif Require Import Common UnitsModel UnitsSpec.
Open Scope string_scope.

Definition table : list (string * row) :=
  Eval vm_compute in match conversions with Some c => c | None => [] end.
Lemma conversions_table : conversions = Some table.
Proof. vm_compute. reflexivity. Qed.

Definition flat : list (string * string * Q) :=
  Eval vm_compute in flat_map (fun r => map (fun e => (fst r, fst e, snd e)) (snd r)) table.

Lemma lookup_in {V} (d : list (string * V)) k v : lookup d k = Some v -> In (k, v) d.
Proof.
  induction d as [|[x w] d IH]; cbn; [discriminate|].
  destruct (String.eqb x k) eqn:E; intro H.
  - apply String.eqb_eq in E. injection H as <-. subst. auto.
  - auto.
Qed.
Lemma flat_in a b f r : lookup table a = Some r -> lookup r b = Some f -> In (a, b, f) flat.
Proof.
  intros H1 H2. apply lookup_in in H1, H2.
  change flat with (flat_map (fun r => map (fun e => (fst r, fst e, snd e)) (snd r)) table).
  apply in_flat_map. exists (a, r). split; [exact H1|]. cbn.
  apply in_map_iff. exists (b, f). auto.
Qed.
(** The factor from one normal unit to another. *)
Definition factor (a b : string) : option Q :=
  match lookup table a with Some r => lookup r b | None => None end.
Lemma factor_flat a b f : factor a b = Some f -> In (a, b, f) flat.
Proof.
  unfold factor. destruct (lookup table a) eqn:E; [|discriminate]. intro. eapply flat_in; eauto.
Qed.
Lemma convert_factor v a b :
  unit_convert v a b = match factor (normal a) (normal b) with Some f => Some (v * f) | None => None end.
Proof.
  unfold unit_convert, factor. rewrite conversions_table. destruct (lookup table (normal a)); auto.
Qed.

(** Checking something of all entries by computation. *)
Lemma all_flat (P : string * string * Q -> bool) : forallb P flat = true -> forall e, In e flat -> P e = true.
Proof. apply forallb_forall. Qed.

Ltac each_unit s :=
  repeat match goal with
  | |- context [String.eqb ?k s] => destruct (String.eqb_spec k s); [subst; reflexivity|]
  | |- context [String.eqb s ?k] => destruct (String.eqb_spec s k); [subst; reflexivity|]
  end; try reflexivity.
Lemma seconds_normal u : seconds_of (normal u) = seconds_of (lower u).
Proof.
  unfold normal. generalize (lower u). intro s. unfold TIME_ALTERNATES. cbn [lookup].
  each_unit s.
Qed.
Lemma metres_normal u : metres_of (normal u) = metres_of (lower u).
Proof.
  unfold normal. generalize (lower u). intro s. unfold TIME_ALTERNATES. cbn [lookup].
  each_unit s.
Qed.

(** The normal names. *)
Definition time_name (x : Q) : string :=
  if Qeqb x 1 then "s" else if Qeqb x 60 then "min" else if Qeqb x 3600 then "hr" else if Qeqb x 86400 then "day" else "week".
Lemma seconds_name u x : seconds_of (lower u) = Some x -> normal u = time_name x.
Proof.
  unfold normal. generalize (lower u). intro s. unfold seconds_of, TIME_ALTERNATES. cbn [lookup existsb].
  repeat match goal with
  | |- context [String.eqb s ?k] => destruct (String.eqb_spec s k); [subst; cbn; intros [= <-]; reflexivity|]
  end.
  discriminate.
Qed.
Lemma metres_name u x : metres_of (lower u) = Some x -> normal u = lower u /\ In (lower u) DISTANCE_UNITS.
Proof.
  unfold normal. generalize (lower u). intro s. unfold metres_of, DISTANCE_UNITS, TIME_ALTERNATES. cbn [lookup].
  repeat match goal with
  | |- context [String.eqb s ?k] => destruct (String.eqb_spec s k); [subst; cbn; intros _; auto 10|]
  end.
  discriminate.
Qed.

(** Every entry of the table is between two times or two distances, and right. *)
Definition right_entry (e : string * string * Q) : bool :=
  let '(a, b, f) := e in
  match seconds_of a, seconds_of b, metres_of a, metres_of b with
  | Some x, Some y, None, None => Qeqb f (x / y) && (Qltb y 86400 || negb (Qeqb x y) && Qltb 3600 x && Qltb 3600 y)
  | None, None, Some x, Some y => Qleb (Qabs (f - x / y)) ((4 # 10000000) * (x / y)) && Qltb 0 f && (negb (String.eqb a b) || Qeqb f 1)
  | _, _, _, _ => false
  end.
Lemma all_right : forall e, In e flat -> right_entry e = true.
Proof. apply all_flat. vm_compute. reflexivity. Qed.
(** Opposite entries are inverse. *)
Lemma all_back : forall e e', In e flat -> In e' flat ->
  fst (fst e') = snd (fst e) -> snd (fst e') = fst (fst e) -> snd e * snd e' == 1.
Proof.
  intros e e' H H' E1 E2.
  assert (A : forallb (fun e => forallb (fun e' => negb (String.eqb (fst (fst e')) (snd (fst e)) && String.eqb (snd (fst e')) (fst (fst e)))
    || Qeqb (snd e * snd e') 1) flat) flat = true) by (vm_compute; reflexivity).
  rewrite forallb_forall in A. specialize (A e H). rewrite forallb_forall in A. specialize (A e' H').
  rewrite E1, E2, !String.eqb_refl in A. cbn in A. apply Qeqb_eq in A. exact A.
Qed.
(** Two distance conversions against one. *)
Lemma all_two : forall e e' e'', In e flat -> In e' flat -> In e'' flat ->
  fst (fst e') = snd (fst e) -> fst (fst e'') = fst (fst e) -> snd (fst e'') = snd (fst e') ->
  Qabs (snd e * snd e' - snd e'') <= (7 # 10000000) * Qabs (snd e'').
Proof.
  intros e e' e'' H H' H'' E1 E2 E3.
  assert (A : forallb (fun e => forallb (fun e' => negb (String.eqb (fst (fst e')) (snd (fst e))) || forallb (fun e'' =>
    negb (String.eqb (fst (fst e'')) (fst (fst e)) && String.eqb (snd (fst e'')) (snd (fst e')))
    || Qleb (Qabs (snd e * snd e' - snd e'')) ((7 # 10000000) * Qabs (snd e''))) flat) flat) flat = true) by (vm_compute; reflexivity).
  rewrite forallb_forall in A. specialize (A e H). rewrite forallb_forall in A. specialize (A e' H').
  rewrite E1, String.eqb_refl in A. cbn [negb orb] in A. rewrite forallb_forall in A. specialize (A e'' H'').
  rewrite E2, E3, !String.eqb_refl in A. cbn [negb orb andb] in A. apply Qleb_le in A. exact A.
Qed.

Lemma convert_inv v a b r : unit_convert v a b = Some r ->
  exists f, r = v * f /\ In (normal a, normal b, f) flat.
Proof.
  rewrite convert_factor. destruct (factor (normal a) (normal b)) eqn:E; [|discriminate].
  intros [= <-]. apply factor_flat in E. eauto.
Qed.
Lemma length_lower w : String.length (lower w) = String.length w.
Proof. induction w; cbn; congruence. Qed.
