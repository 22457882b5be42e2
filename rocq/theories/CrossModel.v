(** Model of geography/intersections.py.

    Points are abstract: [inside] is "not further than the radius from the sensor"
    (lines 107-109), [gdist] the distance of the earth model in metres, [line a b n] the
    samples of ecef_and_geo_linspace with n segments.  Errors are values. *)
From Coq Require Import Qround.
From Verif Require Import Common.

Inductive kind := START_INSIDE | START_OUT | ENTER | EXIT | END_INSIDE | END_OUT.
Definition kind_eqb (a b : kind) : bool :=
  match a, b with
  | START_INSIDE, START_INSIDE | START_OUT, START_OUT | ENTER, ENTER | EXIT, EXIT
  | END_INSIDE, END_INSIDE | END_OUT, END_OUT => true
  | _, _ => false
  end.
Inductive err := TooSmall | TwoCrossovers | BadDirection | Switched | Assertion | Unbound | DivZero.
Inductive outcome (A : Type) := Ok (x : A) | Err (e : err) | OutOfFuel.
Arguments Ok {A}. Arguments Err {A}. Arguments OutOfFuel {A}.

Section Cross.
Variable P : Type.
Variable inside : P -> bool.
(** geo_types.py:98-105 *)
Record cond := mkC { c_kind : kind; c_begin : P; c_end : option P }.

Definition onat_eqb (a : option nat) (b : nat) : bool := match a with Some x => Nat.eqb x b | None => false end.
(** The loop of find_crossing_points, intersections.py:102-137, over the samples from
    number [i] on; [lla] are all of them. *)
Fixpoint scan (lla : list P) (i : nat) (last_out last_in : option nat) (cross : list cond) (rest : list P) : outcome (list cond * option bool) :=
  match rest with
  | [] => Ok (cross, None)
  | p :: rest' =>
      let is_in := inside p in
      let next cross' :=
        match scan lla (S i) (if is_in then last_out else Some i) (if is_in then Some i else last_in) cross' rest' with
        | Ok (c, None) => Ok (c, Some is_in)
        | r => r
        end in
      match i with
      | O => next (cross ++ [mkC (if is_in then START_INSIDE else START_OUT) p None])
      | S j =>
          if is_in && negb (onat_eqb last_in j) then
            match last_out with
            | None => Err Assertion
            | Some o => match nth_error lla o with
                        | None => Err Assertion
                        | Some b => if Nat.eqb o j then next (cross ++ [mkC ENTER b (Some p)]) else Err Assertion
                        end
            end
          else if negb is_in && negb (onat_eqb last_out j) then
            match last_in with
            | None => Err Assertion
            | Some o => match nth_error lla o with
                        | None => Err Assertion
                        | Some b => if Nat.eqb o j then next (cross ++ [mkC EXIT b (Some p)]) else Err Assertion
                        end
            end
          else next cross
      end
  end.
(** find_crossing_points on the samples, intersections.py:102-143; with no samples the
    last lines fail. *)
Definition find_crossing (samples : list P) : outcome (list cond) :=
  match scan samples 0 None None [] samples with
  | Ok (c, Some is_in) =>
      match rev samples with
      | z :: _ => Ok (c ++ [mkC (if is_in then END_INSIDE else END_OUT) z None])
      | [] => Err Unbound
      end
  | Ok (_, None) => Err Unbound
  | Err e => Err e
  | OutOfFuel => OutOfFuel
  end.

Variable gdist : P -> P -> Q.
Variable line : P -> P -> nat -> list P.
(** int(dist / dist_between) + 1 for a distance, which is not negative *)
Definition points_for (dist between : Q) : nat := Z.to_nat (Qfloor (dist / between) + 1).
(** The number of segments, _preprocess, intersections.py:44-51 *)
Fixpoint segments (fuel : nat) (dist between : Q) : outcome nat :=
  if Qeqb between 0 then Err DivZero else
  let points := points_for dist between in
  if (points <=? 2)%nat then
    let between' := between / 2 in
    if Qltb between' 100 then Err TooSmall
    else match fuel with O => OutOfFuel | S f => segments f dist between' end
  else Ok points.
(** The loop runs at most that often: each time the distance is halved. *)
Definition halvings (between : Q) : nat := Z.to_nat (Qceiling between).
(** find_crossing_points, intersections.py:64-143 *)
Definition find_crossing_points (start finish : P) (between : Q) : outcome (list cond) :=
  match segments (halvings between) (gdist start finish) between with
  | Ok n => find_crossing (line start finish n)
  | Err e => Err e
  | OutOfFuel => OutOfFuel
  end.
(** _split_down, intersections.py:178-202; a level of 0 divides by zero. *)
Fixpoint split_down (b e : P) (between : Q) (levels : list Q) (last : option cond) : outcome cond :=
  match levels with
  | [] => match last with Some c => Ok c | None => Err Unbound end
  | d :: levels' =>
      if Qeqb d 0 then Err DivZero else
      match find_crossing_points b e (between / d) with
      | Ok [s; c; f] =>
          if kind_eqb (c_kind c) ENTER || kind_eqb (c_kind c) EXIT then
            match c_end c with
            | Some e' => split_down (c_begin c) e' (between / d) levels' (Some c)
            | None => Err Assertion
            end
          else Err BadDirection
      | Ok _ => Err TwoCrossovers
      | Err x => Err x
      | OutOfFuel => OutOfFuel
      end
  end.
(** get_intersection_locations, intersections.py:242-275: the crossings refined ... *)
Fixpoint refine (between : Q) (levels : list Q) (l : list cond) : outcome (list cond) :=
  match l with
  | [] => Ok []
  | c :: l' =>
      match c_end c with
      | None => Err Assertion
      | Some e =>
          match split_down (c_begin c) e between levels None with
          | Ok n =>
              if kind_eqb (c_kind n) (c_kind c) then
                match (if kind_eqb (c_kind c) EXIT then Some (c_begin n) else c_end n) with
                | None => Err Assertion
                | Some x => match refine between levels l' with
                            | Ok r => Ok (mkC (c_kind c) x None :: r)
                            | y => y
                            end
                end
              else Err Switched
          | Err x => Err x
          | OutOfFuel => OutOfFuel
          end
      end
  end.
(** ... between the ends, if inside. *)
Definition get_intersections (start finish : P) (between : Q) (levels : list Q) : outcome (list cond) :=
  match find_crossing_points start finish between with
  | Ok rough =>
      match refine between levels (removelast (tl rough)), rough, rev rough with
      | Ok l, s :: _, f :: _ =>
          Ok ((if kind_eqb (c_kind s) START_INSIDE then [s] else []) ++ l ++
              (if kind_eqb (c_kind f) END_INSIDE then [f] else []))
      | Ok _, _, _ => Err Unbound
      | x, _, _ => x
      end
  | x => x
  end.
End Cross.
