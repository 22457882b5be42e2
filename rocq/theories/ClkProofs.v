(** Proofs for clock times with floats. *)
From Coq Require Import Qround Qabs Qpower String Ascii.
From Verif Require Import Common UnitsModel RndModel RndSpec RndProofs ClkModel ClkSpec.

(** Floats from 2^E on are multiples of 2^(E-52). *)
Lemma float_grid x E : float64 x -> 2 ^ E <= x -> exists z, x == inject_Z z * 2 ^ (E - 52).
Proof.
  intros (m & e & Hm & Ex) H. destruct (Z_le_gt_dec (E - 52) e) as [L|G].
  - exists (m * 2 ^ (e - (E - 52)))%Z. rewrite Ex, inject_Z_mult, <- two_Z by lia. rewrite <- Qmult_assoc, <- two_add. replace (e - (E - 52) + (E - 52))%Z with e by lia. reflexivity.
  - exists (2 ^ 52)%Z. rewrite <- two_Z by lia. rewrite <- two_add. replace (52 + (E - 52))%Z with E by lia. apply Qle_antisym; [|exact H].
    rewrite Ex. apply Qle_trans with (inject_Z (2 ^ 53) * 2 ^ e); [apply Qmult_le_compat_r; [rewrite <- Zle_Qle; lia|apply Qlt_le_weak, two_pos]|].
    rewrite <- two_Z by lia. rewrite <- two_add. apply two_mono. lia.
Qed.
Lemma float_int z : (Z.abs z <= 2 ^ 53)%Z -> float64 (inject_Z z).
Proof. intro H. exists z, 0%Z. split; [exact H|]. change (2 ^ 0) with 1. ring. Qed.
Lemma rnd64_int z : (Z.abs z <= 2 ^ 53)%Z -> rnd64 (inject_Z z) == inject_Z z.
Proof. intro H. apply rnd64_exact, float_int. exact H. Qed.
Lemma floor_unique x z : inject_Z z <= x -> x < inject_Z z + 1 -> Qfloor x = z.
Proof.
  intros L U. pose proof (Qfloor_le x) as A. pose proof (Qlt_floor x) as B. rewrite inject_Z_plus in B. change (inject_Z 1) with 1 in B.
  assert (inject_Z (Qfloor x) < inject_Z (z + 1)) by (rewrite inject_Z_plus; change (inject_Z 1) with 1; lra).
  assert (inject_Z z < inject_Z (Qfloor x + 1)) by (rewrite inject_Z_plus; change (inject_Z 1) with 1; lra).
  rewrite <- Zlt_Qlt in *. lia.
Qed.
(** The day is right, whatever the rounding of the quotient. *)
Lemma day_right h : float64 h -> 0 <= h -> h <= inject_Z (2 ^ 40) -> Qfloor (rnd64 (h / 24)) = Qfloor (h / 24).
Proof.
  intros Hf H0 H1. set (d := Qfloor (h / 24)).
  pose proof (Qfloor_le (h / 24)) as A. pose proof (Qlt_floor (h / 24)) as B. fold d in A, B.
  assert (E24 : h / 24 * 24 == h) by (field; discriminate).
  assert (D0 : (0 <= d)%Z). { apply Z.lt_succ_r. rewrite Zlt_Qlt. unfold Z.succ. apply Qle_lt_trans with (h / 24); [|exact B]. change (inject_Z 0) with 0. lra. }
  assert (D1 : (d <= 2 ^ 40)%Z). { rewrite Zle_Qle. lra. }
  apply floor_unique.
  - rewrite <- (rnd64_int d) by lia. apply rnd64_mono. exact A.
  - set (k := (d + 1)%Z) in *. assert (Ek : inject_Z d + 1 == inject_Z k) by (unfold k; rewrite inject_Z_plus; reflexivity). rewrite Ek.
    assert (K1 : (1 <= k <= 2 ^ 40 + 1)%Z) by lia. set (E := Z.log2 k). assert (E0 : (0 <= E)%Z) by apply Z.log2_nonneg. assert (EL : (E <= 41)%Z).
    { unfold E. transitivity (Z.log2 (2 ^ 41)); [apply Z.log2_le_mono; lia|]. rewrite Z.log2_pow2 by lia. lia. }
    destruct (Z.log2_spec k ltac:(lia)) as [L U]. fold E in L, U.
    assert (LQ : 2 ^ E <= inject_Z k) by (rewrite two_Z by lia; rewrite <- Zle_Qle; exact L).
    assert (UZ : (k + 1 <= 2 ^ (E + 1))%Z) by (unfold Z.succ in U; lia).
    pose proof (two_pos E) as PE. pose proof (two_pos (E - 52)) as PE2.
    destruct (Qlt_le_dec h (2 ^ (E + 4))) as [Hlt|Hge].
    + rewrite two_add in Hlt. change (2 ^ 4) with 16 in Hlt.
      pose proof (err_pos u64 rnd64 rnd64_rounding (h / 24) ltac:(lra)) as Er. unfold u64 in Er. change (1 # 2 ^ 53) with (1 # 9007199254740992) in Er. lra.
    + destruct (float_grid h (E + 4) Hf Hge) as [z Ez]. replace (E + 4 - 52)%Z with (E - 48)%Z in Ez by lia.
      assert (Gk : 24 * inject_Z k == inject_Z (24 * k * 2 ^ (48 - E)) * 2 ^ (E - 48)).
      { rewrite !inject_Z_mult, <- two_Z by lia. rewrite <- Qmult_assoc, <- two_add. replace (48 - E + (E - 48))%Z with 0%Z by lia. change (2 ^ 0) with 1. change (inject_Z 24) with 24. ring. }
      set (w := (24 * k * 2 ^ (48 - E))%Z) in *. pose proof (two_pos (E - 48)) as P48.
      assert (Zw : (z < w)%Z).
      { rewrite Zlt_Qlt. assert (Hlt : inject_Z z * 2 ^ (E - 48) < inject_Z w * 2 ^ (E - 48)) by (rewrite <- Ez, <- Gk; lra). apply Qmult_lt_r in Hlt; assumption. }
      assert (Zw' : (z + 1 <= w)%Z) by lia. rewrite Zle_Qle, inject_Z_plus in Zw'. change (inject_Z 1) with 1 in Zw'.
      assert (Gap : h <= 24 * inject_Z k - 2 ^ (E - 48)).
      { rewrite Ez, Gk. assert ((inject_Z z + 1) * 2 ^ (E - 48) <= inject_Z w * 2 ^ (E - 48)) by (apply Qmult_le_compat_r; lra). lra. }
      assert (E16 : 2 ^ (E - 48) == 16 * 2 ^ (E - 52)) by (replace (E - 48)%Z with (4 + (E - 52))%Z by lia; rewrite two_add; reflexivity).
      set (p := 2 ^ (E - 52)) in *. set (X := inject_Z k - (2 # 3) * p).
      assert (HX : h / 24 <= X) by (unfold X; lra).
      assert (Fy : float64 (inject_Z k - p)).
      { exists (k * 2 ^ (52 - E) - 1)%Z, (E - 52)%Z. split.
        - assert (k * 2 ^ (52 - E) <= 2 ^ (E + 1) * 2 ^ (52 - E))%Z by (apply Z.mul_le_mono_nonneg_r; [apply Z.pow_nonneg; lia|lia]). rewrite <- Z.pow_add_r in H by lia. replace (E + 1 + (52 - E))%Z with 53%Z in H by lia.
          assert (1 <= k * 2 ^ (52 - E))%Z by (assert (0 < 2 ^ (52 - E))%Z by (apply Z.pow_pos_nonneg; lia); nia). lia.
        - fold p. unfold Z.sub at 1. rewrite inject_Z_plus, inject_Z_mult, <- two_Z by lia. change (inject_Z (- (1))) with (-1).
          assert (2 ^ (52 - E) * p == 1) by (unfold p; rewrite <- two_add; replace (52 - E + (E - 52))%Z with 0%Z by lia; reflexivity).
          transitivity (inject_Z k * (2 ^ (52 - E) * p) - p); [rewrite H; ring|ring]. }
      pose proof (rnd64_nearest X _ Fy) as N. assert (EN : Qabs (inject_Z k - p - X) == (1 # 3) * p).
      { transitivity (Qabs (- ((1 # 3) * p))); [apply Qabs_wd; unfold X; ring|]. rewrite Qabs_opp. apply Qabs_pos. lra. }
      rewrite EN in N. apply Qabs_Qle_condition in N. pose proof (rnd64_mono _ _ HX) as M. unfold X in *. lra.
Qed.
(** A float below 2^53 less a whole number below it is a float. *)
Lemma float_sub h d : float64 h -> (0 <= d)%Z -> inject_Z d <= h -> h <= inject_Z (2 ^ 53) -> float64 (h - inject_Z d).
Proof.
  intros (m & e & Hm & Eh) D0 Hd H1. destruct (Z_le_gt_dec e 0) as [L|G].
  - exists (m - d * 2 ^ (- e))%Z, e. pose proof (two_pos e) as P.
    assert (Eq : h - inject_Z d == inject_Z (m - d * 2 ^ (- e)) * 2 ^ e).
    { unfold Z.sub. rewrite inject_Z_plus, inject_Z_opp, inject_Z_mult, <- two_Z by lia. rewrite Eh. pose proof (two_opp e) as O. transitivity (inject_Z m * 2 ^ e - inject_Z d * (2 ^ e * 2 ^ (- e))); [rewrite O; ring|ring]. }
    split; [|exact Eq]. assert (N : (0 <= m - d * 2 ^ (- e))%Z).
    { rewrite Zle_Qle. change (inject_Z 0) with 0. destruct (Qlt_le_dec (inject_Z (m - d * 2 ^ (- e))) 0) as [B|B]; [|exact B]. exfalso. assert (inject_Z (m - d * 2 ^ (- e)) * 2 ^ e < 0 * 2 ^ e) by (apply Qmult_lt_r; assumption). lra. }
    assert (0 <= d * 2 ^ (- e))%Z by (apply Z.mul_nonneg_nonneg; [lia|apply Z.pow_nonneg; lia]). lia.
  - assert (Ei : h == inject_Z (m * 2 ^ e)) by (rewrite inject_Z_mult, <- two_Z by lia; exact Eh).
    assert (Eq : h - inject_Z d == inject_Z (m * 2 ^ e - d)) by (unfold Z.sub; rewrite inject_Z_plus, inject_Z_opp; rewrite Ei; ring).
    rewrite Ei in Hd, H1. rewrite <- Zle_Qle in Hd, H1.
    destruct (float_int (m * 2 ^ e - d) ltac:(lia)) as (m' & e' & A & B). exists m', e'. split; [exact A|]. rewrite Eq. exact B.
Qed.
(** Less than 24 hours are less than 86400 seconds. *)
Lemma below_day r : float64 r -> 0 <= r -> r < 24 -> rnd64 (r * 3600) < 86400.
Proof.
  intros Hf H0 H. assert (G : r <= 24 - (1 # 281474976710656)).
  { destruct (Qlt_le_dec r 16) as [L|L]; [lra|]. destruct (float_grid r 4 Hf L) as [z Ez]. change (2 ^ (4 - 52)) with (1 # 281474976710656) in Ez.
    assert ((z < 24 * 281474976710656)%Z) by (rewrite Zlt_Qlt; change (inject_Z (24 * 281474976710656)) with (24 * 281474976710656); lra).
    assert ((z <= 24 * 281474976710656 - 1)%Z) by lia. rewrite Zle_Qle in H2. change (inject_Z (24 * 281474976710656 - 1)) with (24 * 281474976710656 - 1) in H2. lra. }
  apply Qle_lt_trans with (rnd64 ((24 - (1 # 281474976710656)) * 3600)); [apply rnd64_mono; lra|]. vm_compute. reflexivity.
Qed.
Lemma hms S : (0 <= S < 86400)%Z -> (3600 * ((S / 3600) mod 24) + 60 * ((S / 60) mod 60) + S mod 60 = S)%Z.
Proof.
  intro H. rewrite (Z.mod_small (S / 3600) 24) by (split; [apply Z.div_pos; lia|apply Z.div_lt_upper_bound; lia]).
  pose proof (Z.div_mod S 60 ltac:(lia)). pose proof (Z.div_mod (S / 60) 60 ltac:(lia)). rewrite Z.div_div in H1 by lia. change (60 * 60)%Z with 3600%Z in H1. lia.
Qed.
Lemma some_inj (a b : Q) : Some a = Some b -> b = a.
Proof. congruence. Qed.
(** The factors. *)
Lemma factor_error tu f : f_factor rnd64 (normal (match tu with None => "hr"%string | Some v => v end)) = Some f -> forall c, unit_seconds tu = Some c ->
  0 < c <= 3600 /\ Qabs (f * 3600 - c) <= u64 * c.
Proof.
  assert (B : forall c, c = 1 \/ c = 60 \/ c = 3600 -> 0 < c <= 3600) by (intros c [-> | [-> | ->]]; lra).
  intros H c Hc. destruct tu as [v|].
  - unfold unit_seconds in Hc. cbv zeta in Hc.
    destruct (existsb (String.eqb (lower v)) ["s"%string; "second"%string; "seconds"%string]) eqn:E1.
    + injection Hc as <-. apply existsb_exists in E1. destruct E1 as (x & Hx & Ex). apply String.eqb_eq in Ex.
      assert (normal v = "s"%string) as Hn by (unfold normal; rewrite Ex; destruct Hx as [<-|[<-|[<-|[]]]]; reflexivity). rewrite Hn in H. change (f_factor rnd64 "s"%string) with (Some (rnd64 (1 / rnd64 (60 * 60)))) in H. apply some_inj in H. subst f. split; [lra|]. vm_compute. discriminate.
    + destruct (existsb (String.eqb (lower v)) ["min"%string; "minute"%string; "minutes"%string]) eqn:E2.
      * injection Hc as <-. apply existsb_exists in E2. destruct E2 as (x & Hx & Ex). apply String.eqb_eq in Ex.
        assert (normal v = "min"%string) as Hn by (unfold normal; rewrite Ex; destruct Hx as [<-|[<-|[<-|[]]]]; reflexivity). rewrite Hn in H. change (f_factor rnd64 "min"%string) with (Some (rnd64 (1 / 60))) in H. apply some_inj in H. subst f. split; [lra|]. vm_compute. discriminate.
      * destruct (existsb (String.eqb (lower v)) ["hr"%string; "hour"%string; "hours"%string]) eqn:E3; [|discriminate].
        injection Hc as <-. apply existsb_exists in E3. destruct E3 as (x & Hx & Ex). apply String.eqb_eq in Ex.
        assert (normal v = "hr"%string) as Hn by (unfold normal; rewrite Ex; destruct Hx as [<-|[<-|[<-|[]]]]; reflexivity). rewrite Hn in H. change (f_factor rnd64 "hr"%string) with (Some (1)) in H. apply some_inj in H. subst f. split; [lra|]. vm_compute. discriminate.
  - injection Hc as <-. change (Some 1 = Some f) in H. apply some_inj in H. subst f. split; [lra|]. vm_compute. discriminate.
Qed.
Lemma clock_error now f c : 0 <= now -> 0 < c -> Qabs (f * 3600 - c) <= u64 * c -> now * c <= inject_Z (2 ^ 40) ->
  of_day (f_clock rnd64 now f) /\ exists P, shown (f_clock rnd64 now f) = Some P /\
    inject_Z P <= now * c + 4 * u64 * (now * c + 86400) /\ now * c < inject_Z P + 1 + 4 * u64 * (now * c + 86400).
Proof.
  intros H0 Hc Hf HT. apply Qabs_Qle_condition in Hf. set (T := now * c) in *. assert (T0 : 0 <= T) by (unfold T; apply Qmult_le_0_compat; lra).
  assert (U : 0 <= u64 <= 1 # 4096) by (split; vm_compute; discriminate).
  assert (F0 : 0 <= f). { assert (u64 * c <= 1 * c) by (apply Qmult_le_compat_r; lra). lra. }
  assert (NF : T - u64 * T <= now * f * 3600 <= T + u64 * T).
  { assert (A1 : now * (c - u64 * c) <= now * (f * 3600)) by (apply mul_le_l; [exact H0|lra]). assert (A2 : now * (f * 3600) <= now * (c + u64 * c)) by (apply mul_le_l; [exact H0|lra]).
    assert (now * (c - u64 * c) == T - u64 * T) by (unfold T; ring). assert (now * (c + u64 * c) == T + u64 * T) by (unfold T; ring). assert (now * (f * 3600) == now * f * 3600) by ring. lra. }
  unfold f_clock. set (h := rnd64 (now * f)).
  pose proof (err_pos u64 rnd64 rnd64_rounding (now * f) ltac:(apply Qmult_le_0_compat; assumption)) as Eh. fold h in Eh.
  assert (UT : u64 * (now * f * 3600) <= u64 * (T + u64 * T)) by (apply mul_le_l; lra).
  assert (UU : u64 * (u64 * T) <= (1 # 4096) * (u64 * T)) by (apply Qmult_le_compat_r; [lra|apply Qmult_le_0_compat; lra]).
  assert (UT0 : 0 <= u64 * T) by (apply Qmult_le_0_compat; lra).
  assert (Hh : T - (5 # 2) * (u64 * T) <= h * 3600 <= T + (5 # 2) * (u64 * T)) by lra.
  assert (UTs : u64 * T <= (1 # 4096) * T) by (apply Qmult_le_compat_r; lra).
  assert (h0 : 0 <= h) by (apply (rnd_nonneg u64 rnd64 rnd64_rounding); apply Qmult_le_0_compat; assumption).
  assert (h1 : h <= inject_Z (2 ^ 40)). { change (inject_Z (2 ^ 40)) with (1099511627776 # 1) in *. lra. }
  assert (Fh : float64 h) by apply rnd64_float.
  rewrite (day_right h Fh h0 h1). set (d := Qfloor (h / 24)).
  pose proof (Qfloor_le (h / 24)) as A. pose proof (Qlt_floor (h / 24)) as B. fold d in A, B. rewrite inject_Z_plus in B. change (inject_Z 1) with 1 in B.
  assert (E24 : h / 24 * 24 == h) by (field; discriminate).
  assert (D0 : (0 <= d)%Z). { apply Z.lt_succ_r. rewrite Zlt_Qlt. unfold Z.succ. rewrite inject_Z_plus. change (inject_Z 1) with 1. change (inject_Z 0) with 0. lra. }
  assert (Ed : inject_Z (d * 24) == 24 * inject_Z d) by (rewrite inject_Z_mult; change (inject_Z 24) with 24; ring).
  assert (D1 : (d * 24 <= 2 ^ 40)%Z) by (rewrite Zle_Qle, Ed; lra).
  assert (Er : rnd64 (h - rnd64 (inject_Z (d * 24))) == h - inject_Z (d * 24)).
  { transitivity (rnd64 (h - inject_Z (d * 24))); [apply (rnd_comp u64 rnd64 rnd64_rounding); rewrite rnd64_int by lia; reflexivity|].
    apply rnd64_exact. apply float_sub; [exact Fh|lia|rewrite Ed; lra|]. change (inject_Z (2 ^ 40)) with (1099511627776 # 1) in h1. change (inject_Z (2 ^ 53)) with (9007199254740992 # 1). lra. }
  set (r := rnd64 (h - rnd64 (inject_Z (d * 24)))) in *. assert (Fr : float64 r) by apply rnd64_float.
  assert (r0 : 0 <= r) by lra. assert (r1 : r < 24) by lra.
  pose proof (below_day r Fr r0 r1) as S1. pose proof (err_pos u64 rnd64 rnd64_rounding (r * 3600) ltac:(lra)) as Es. set (sec := rnd64 (r * 3600)) in *.
  assert (S0 : 0 <= sec) by (apply (rnd_nonneg u64 rnd64 rnd64_rounding); lra).
  pose proof (Qfloor_le sec) as FA. pose proof (Qlt_floor sec) as FB. rewrite inject_Z_plus in FB. change (inject_Z 1) with 1 in FB. set (S := Qfloor sec) in *.
  assert (RS : (0 <= S < 86400)%Z).
  { split; [apply Z.lt_succ_r; rewrite Zlt_Qlt; unfold Z.succ; rewrite inject_Z_plus; change (inject_Z 1) with 1; change (inject_Z 0) with 0; lra|rewrite Zlt_Qlt; change (inject_Z 86400) with 86400; lra]. }
  split.
  - cbn [of_day]. split; [apply Z.mod_pos_bound; lia|]. split; apply Z.mod_pos_bound; lia.
  - exists (86400 * d + S)%Z. split; [cbn [shown]; f_equal; pose proof (hms S RS); lia|].
    assert (Ep : inject_Z (86400 * d + S) == 86400 * inject_Z d + inject_Z S) by (rewrite inject_Z_plus, inject_Z_mult; reflexivity). rewrite Ep.
    assert (UR : u64 * (r * 3600) <= u64 * 86400) by (apply mul_le_l; lra). assert (UR0 : 0 <= u64 * (r * 3600)) by (apply Qmult_le_0_compat; lra).
    split; lra.
Qed.
