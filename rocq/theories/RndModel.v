(** What rounding does: floats instead of exact numbers.

    The container of ContinuousModel, the linear state of ActiveModel and the location
    changing states of PathModel once more, on the same records, with every sum,
    difference, product and quotient rounded by a function [rnd].  With the identity for
    [rnd] they are the models they are taken from (RndProps.v).  Comparisons are exact, as
    they are in Python.  [rnd64] is the rounding of Python's floats: binary, 53 digits, to
    the nearest, ties to even; overflow and underflow are left out. *)
From Coq Require Import Qabs Qround Qpower Qreduction.
From Verif Require Import Common ContainerModel ContinuousModel ActiveModel PathModel.

(** ** Rounding to 53 binary digits *)
(** The largest k with 2^k <= a, for positive a. *)
Definition ilog2 (a : Q) : Z :=
  let k := (Z.log2 (Qnum a) - Z.log2 (Zpos (Qden a)))%Z in
  if Qle_bool (2 ^ k) a then k else (k - 1)%Z.
(** The nearest integer, the even one if there are two. *)
Definition nearest (y : Q) : Z :=
  let f := Qfloor y in
  let r := y - inject_Z f in
  if Qltb r (1 # 2) then f else if Qltb (1 # 2) r then (f + 1)%Z else if Z.even f then f else (f + 1)%Z.
Definition rnd64 (x : Q) : Q :=
  if Qeqb x 0 then 0
  else let e := (ilog2 (Qabs x) - 52)%Z in
       let v := Qred (inject_Z (nearest (Qabs x * 2 ^ (- e))) * 2 ^ e) in
       if Qltb x 0 then - v else v.

Section Rnd.
Variable rnd : Q -> Q.

(** ** ContinuousContainer *)
(** The [level] property (container.py:401-408). *)
Definition f_cur_level (s : kst) : Q := rnd (k_level s + rnd (k_rate s * rnd (k_now s - k_last s))).
(** container.py:288-298, monitoring.py:254-264 *)
Definition f_set_level (s : kst) : kst :=
  let '(l, t) := if Qltb (k_last s) (k_now s)
                 then (rnd (k_level s + rnd (k_rate s * rnd (k_now s - k_last s))), k_now s)
                 else (k_level s, k_last s) in
  mkK (k_cap s) (k_err_empty s) (k_err_full s) (k_now s) l (k_rate s) t
      (k_active s) (k_checking s) (k_users s) (k_checks s) (k_urgent s) (k_halt s)
      (crecord (k_now s) l (k_quant s)).
(** container.py:364-370 *)
Definition f_change_rate (s : kst) (dr : Q) : kst :=
  let s1 := f_set_level s in
  let r := rnd (k_rate s1 + dr) in
  if Qeqb r 0 then
    mkK (k_cap s1) (k_err_empty s1) (k_err_full s1) (k_now s1) (k_level s1) r (k_last s1)
        (k_active s1) None (k_users s1) (k_checks s1) (k_urgent s1) (k_halt s1) (k_quant s1)
  else
    mkK (k_cap s1) (k_err_empty s1) (k_err_full s1) (k_now s1) (k_level s1) r (k_last s1)
        (k_active s1) (Some (length (k_checks s1))) (k_users s1) (k_checks s1 ++ [CkInit])
        (k_urgent s1 ++ [CStart (length (k_checks s1))]) (k_halt s1) (k_quant s1).
(** container.py:359-370 *)
Definition f_add_rate (s : kst) (dr : Q) (interrupt : bool) : kst :=
  let s1 := if interrupt then interrupt_check s else s in
  if halted s1 then s1 else f_change_rate s1 dr.
(** container.py:372-379 *)
Definition f_add_user (s : kst) (u : nat) : kst :=
  f_add_rate (set_active s (k_active s ++ [u])) (rate_of s u) true.
(** container.py:381-389 *)
Definition f_remove_user (s : kst) (u : nat) : kst :=
  if existsb (Nat.eqb u) (k_active s)
  then f_add_rate (set_active s (remove_nat u (k_active s))) (- rate_of s u) true
  else set_halt s RNotActive.
(** The rates to be taken off, added up one by one (container.py:305-309, 321-325). *)
Definition f_removed (s : kst) (us : list nat) : Q := fold_left (fun acc u => rnd (acc + - rate_of s u)) us 0.
(** The [finally] block of [_check] (container.py:346-357). *)
Definition f_check_finally (s : kst) : kst :=
  let s0 := f_set_level s in
  let '(s1, to_rem) := if Qltb (k_rate s0) 0 then check_empty s0
                       else if Qltb 0 (k_rate s0) then check_full s0
                       else (s0, []) in
  if halted s1 then s1
  else match to_rem with
       | [] => s1
       | _ => f_add_rate (set_active s1 (fold_left (fun l u => remove_nat u l) to_rem (k_active s1)))
                       (f_removed s1 to_rem) false
       end.
(** Start of [_check] (container.py:334-342); simpy adds the delay to the time. *)
Definition f_check_start (s : kst) (p : nat) : kst :=
  if Qeqb (k_rate s) 0 then set_ckstat s p CkEnd
  else
    let w := rnd (rnd ((if Qltb 0 (k_rate s) then k_cap s else 0) - f_cur_level s) / k_rate s) in
    if Qltb w 0 then let s1 := f_check_finally (set_ckstat s p CkEnd) in if halted s1 then s1 else set_halt s1 RNegDelay
    else set_ckstat s p (CkWait (rnd (k_now s + w))).
(** Start of [_run] (container.py:51-55). *)
Definition f_user_start (s : kst) (u : nat) : kst :=
  match nth_error (k_users s) u with
  | Some v =>
      match u_stat v with
      | UInit t =>
          let s1 := f_add_user s u in
          if halted s1 then s1
          else match t with
               | Some d => if Qltb d 0 then set_halt s1 RNegDelay
                           else set_ustat s1 u (UWait (Some (rnd (k_now s + d))))
               | None => set_ustat s1 u (UWait None)
               end
      | _ => s
      end
  | None => s
  end.
(** Processing of an urgent event, as in ContinuousModel. *)
Definition f_do_urgent (s : kst) (e : urg) : kst :=
  match e with
  | UStart u => f_user_start s u
  | CStart p => f_check_start s p
  | CInt p =>
      match nth_error (k_checks s) p with
      | Some (CkWait _) => f_check_finally (set_ckstat s p CkEnd)    (* container.py:343-357 *)
      | Some CkInit => set_halt s REarlyThrow
      | _ => s                                                     (* already terminated: ignored *)
      end
  | UInt u c =>
      match nth_error (k_users s) u with
      | Some v =>
          match u_stat v with
          | UWait _ =>
              match c with
              | Limit => set_ustat s u UEnd                        (* container.py:57-61 *)
              | Stop => f_remove_user (set_ustat s u UEnd) u         (* container.py:62-65 *)
              end
          | UInit _ => set_halt s REarlyThrow
          | UEnd => s
          end
      | None => s
      end
  end.
(** Timeouts. *)
Definition f_fire_user (s : kst) (u : nat) : option kst :=
  match nth_error (k_users s) u with
  | Some v => match u_stat v with
              | UWait (Some d) => if Qeqb d (k_now s) then Some (f_remove_user (set_ustat s u UEnd) u) else None
              | _ => None
              end
  | None => None
  end.
Definition f_fire_check (s : kst) (p : nat) : option kst :=
  match nth_error (k_checks s) p with
  | Some (CkWait d) => if Qeqb d (k_now s) then Some (f_check_finally (set_ckstat s p CkEnd)) else None
  | _ => None
  end.
(** One step, as in ContinuousModel. *)
Definition f_kstep (s : kst) (o : kop) : option kst :=
  if halted s then None else
  match o with
  | KPut r t => if Qleb r 0 then None else
      Some (push_urgent (mkK (k_cap s) (k_err_empty s) (k_err_full s) (k_now s) (k_level s) (k_rate s) (k_last s)
              (k_active s) (k_checking s) (k_users s ++ [mkU r (UInit t)]) (k_checks s) (k_urgent s) (k_halt s) (k_quant s))
              [UStart (length (k_users s))])
  | KGet r t => if Qleb r 0 then None else
      Some (push_urgent (mkK (k_cap s) (k_err_empty s) (k_err_full s) (k_now s) (k_level s) (k_rate s) (k_last s)
              (k_active s) (k_checking s) (k_users s ++ [mkU (- r) (UInit t)]) (k_checks s) (k_urgent s) (k_halt s) (k_quant s))
              [UStart (length (k_users s))])
  | KCancel u => if alive s u then Some (push_urgent s [UInt u Stop]) else None
  | KTouch => Some (f_set_level s)
  | KUrgent => match k_urgent s with
               | e :: l => Some (f_do_urgent (set_urgent s l) e)
               | [] => None
               end
  | KFireUser u => match k_urgent s with [] => f_fire_user s u | _ => None end
  | KFireCheck p => match k_urgent s with [] => f_fire_check s p | _ => None end
  | KAdvance t =>
      match k_urgent s with
      | [] => if Qleb (k_now s) t && not_before t s then
                Some (mkK (k_cap s) (k_err_empty s) (k_err_full s) t (k_level s) (k_rate s) (k_last s)
                        (k_active s) (k_checking s) (k_users s) (k_checks s) (k_urgent s) (k_halt s) (k_quant s))
              else None
      | _ => None
      end
  end.
Definition f_krun (s : kst) (os : list kop) : kst :=
  fold_left (fun s o => match f_kstep s o with Some s' => s' | None => s end) os s.

(** ** LinearChangingState *)
(** states.py:480-506 *)
Definition f_linear_active (now : Q) (x : sslot) : sslot * (Q + aerr) :=
  match v_data x with
  | None => (x, inl (v_val x))
  | Some d =>
      match d_rate d with
      | None => (x, inr EKey)
      | Some r =>
          if Qltb now (d_started d) then (x, inr ESim)
          else let v := rnd (v_val x + rnd (rnd (now - d_started d) * r)) in
               (mkSlot (v_kind x) v (Some (set_data (Some d) now (Some r) None None None)) (v_tasks x), inl v)
      end
  end.
(** Reads at the times given. *)
Fixpoint f_reads (ts : list Q) (x : sslot) : sslot :=
  match ts with [] => x | t :: ts' => f_reads ts' (fst (f_linear_active t x)) end.

(** ** Location changing states *)
Section Path.
Variable P : Type.
Variable dist : P -> P -> Q.
Variable along : P -> P -> Q -> P.
Variable tol : Q.
(** states.py:555-563, 751-764 *)
Fixpoint f_setup (speed : Q) (current : P) (wps : list P) : list (leg P) :=
  match wps with
  | [] => []
  | w :: wps' => mkLeg (rnd (dist w current / speed)) (dist w current) current w :: f_setup speed w wps'
  end.
(** states.py:599-609, 793-803 *)
Fixpoint f_get_index (legs : list (leg P)) (elapsed sum_t : Q) (i : nat) : option (leg P * nat * Q) :=
  match legs with
  | [] => None
  | l :: legs' =>
      let s := rnd (sum_t + l_time l) in
      if Qleb elapsed (rnd (s + tol)) then Some (l, i, rnd (s - l_time l)) else f_get_index legs' elapsed s (S i)
  end.
(** [_setup] *)
Definition f_do_setup (s : pst P) (k : track P) : option (track P) :=
  match k_legs k with
  | Some _ => Some k
  | None =>
      if Qeqb (k_speed k) 0 && negb (match k_wps k with [] => true | _ => false end) then None
      else Some (mkT (p_now s) (k_speed k) (k_wps k) (Some (f_setup (k_speed k) (p_val s) (k_wps k))))
  end.
(** states.py:627-684, 819-889 *)
Definition f_pread (s : pst P) : pst P * pout P :=
  match p_act s with
  | None => (s, PVal (p_val s))
  | Some k =>
      match f_do_setup s k with
      | None => (s, PZero)
      | Some k' =>
          let s1 := mkP (p_now s) (p_val s) (Some k') in
          let elapsed := rnd (p_now s - k_start k) in
          if Qltb elapsed 0 then (s1, PSim)
          else if Qeqb elapsed 0 then (s1, PVal (p_val s))
          else
            match f_get_index (match k_legs k' with Some l => l | None => [] end) elapsed 0 0 with
            | None => (s1, PSim)
            | Some (l, _, t0) =>
                if Qeqb (l_time l) 0 then (s1, PZero)
                else let q := along (l_start l) (l_end l) (rnd (rnd (elapsed - t0) / l_time l)) in
                     (mkP (p_now s) q (Some k'), PVal q)
            end
      end
  end.
(** Activation at one time (actor.py:328-354), and later a read. *)
Definition f_depart (t0 : Q) (from : P) (speed : Q) (wps : list P) : pst P * pout P :=
  f_pread (mkP t0 from (Some (mkT t0 speed wps None))).
Definition f_at (t : Q) (s : pst P) : pst P := mkP t (p_val s) (p_act s).
(** utils.py:154-175 *)
Fixpoint f_total_dist (current : P) (wps : list P) (acc : Q) : Q :=
  match wps with
  | [] => acc
  | w :: wps' => f_total_dist w wps' (rnd (acc + dist w current))
  end.
Definition f_travel_time (start : P) (wps : list P) (speed : Q) : Q := rnd (f_total_dist start wps 0 / speed).
(** When a timeout made now ends (simpy). *)
Definition f_after (now delay : Q) : Q := rnd (now + delay).
End Path.
End Rnd.
