(** Model of geography/wgs84.py and of the ellipsoidal part of geography/conversions.py.

    Numbers are Coq's real numbers, as in GeoModel, from which the error monad, math's
    functions, unit conversion and points are taken.  Rounding and signed zeros are not
    modelled.  math.tan never fails: near a pole it returns about 1.6e16, where Coq's tan
    has no meaning; no claim is made about poles. *)
From Coq Require Import Reals List Bool String.
From Verif Require Import GeoModel.
Import ListNotations.
Open Scope bool_scope.
Open Scope R_scope.

(** ** Constants, conversions.py:13-34 *)
Definition WGS84_A : R := 6378137.
Definition WGS84_F : R := 1 / 298.257223563.
Definition WGS84_B : R := WGS84_A * (1 - WGS84_F).
Definition we_2 : R := WGS84_F * (2 - WGS84_F).
Definition wep_2 : R := we_2 / (1 - WGS84_F) ^ 2.

(** x ** (1 / 3); a negative x gives a complex number, which the sqrt that follows refuses
    with a TypeError *)
Definition rcbrt (x : R) : res R :=
  if Rltb 0 x then Ok (Rpower x (1 / 3)) else if Rzero x then Ok 0 else Err ValueErr.
(** round(x, 6): to the nearest, halves to even *)
Definition round_int (y : R) : Z :=
  let n := Int_part y in
  if Rltb (y - IZR n) (1 / 2) then n else
  if Rltb (1 / 2) (y - IZR n) then (n + 1)%Z else
  if Z.even n then n else (n + 1)%Z.
Definition round6 (x : R) : R := IZR (round_int (x * 1000000)) / 1000000.

(** ** Conversions: BaseConversions with the constants of WGS84Conversions,
    conversions.py:246-255 *)
(** BaseConversions._lla2ecef, conversions.py:49-70 *)
Definition w_lla2ecef (input_in_radians : bool) (lla : vec) : res vec :=
  let '(lat, lon, ht) := lla in
  let rad_lat := if input_in_radians then lat else radians lat in
  let rad_lon := if input_in_radians then lon else radians lon in
  do root <- rsqrt (1 - we_2 * sin rad_lat ^ 2);
  do N <- rdiv WGS84_A root;
  let temp1 := (N + ht) * cos rad_lat in
  let temp2 := N * (1 - WGS84_F) ^ 2 + ht in
  Ok (temp1 * cos rad_lon, temp1 * sin rad_lon, temp2 * sin rad_lat).
(** BaseConversions._ecef2lla, conversions.py:86-133 *)
Definition w_ecef2lla (radians_out : bool) (ecef : vec) : res vec :=
  let '(X, Y, Z) := ecef in
  let lon := atan2 Y X in
  let e2 := we_2 in
  let r2 := X ^ 2 + Y ^ 2 in
  do r <- rsqrt r2;
  let a := WGS84_A in
  let b := WGS84_B in
  let a2 := a ^ 2 in
  let b2 := b ^ 2 in
  let E2 := a2 - b2 in
  let Z2 := Z ^ 2 in
  let F := 54 * b2 * Z2 in
  let G := r2 + (1 - e2) * Z2 - e2 * E2 in
  do c <- rdiv (e2 * e2 * F * r2) (G * G * G);
  do w <- rsqrt (c * c + 2 * c);
  do s <- rcbrt (1 + c + w);
  do s_inv <- rdiv 1 s;
  do P <- rdiv F (3 * (s + s_inv + 1) ^ 2 * G * G);
  do Q <- rsqrt (1 + 2 * e2 * e2 * P);
  do left <- rdiv (- (e2 * P * r)) (1 + Q);
  do Q_inv <- rdiv 1 Q;
  do mid <- rdiv ((1 - e2) * P * Z2) (Q * (1 + Q));
  do right <- rsqrt (a * a / 2 * (1 + Q_inv) - mid - P * r2 / 2);
  let ro := left + right in
  let tmp := (r - e2 * ro) ^ 2 in
  do U <- rsqrt (tmp + Z2);
  do V <- rsqrt (tmp + (1 - e2) * Z2);
  do zo <- rdiv (b2 * Z) (a * V);
  do share <- rdiv b2 (a * V);
  let h := U * (1 - share) in
  let lat := atan2 (Z + wep_2 * zo) r in
  Ok (if radians_out then (lat, lon, h) else (degrees lat, degrees lon, h)).
(** lla2ecef and ecef2lla of lists, conversions.py:72-84, 135-146 *)
Definition w_lla2ecef_list (input_in_radians : bool) (l : list vec) : res (list vec) :=
  all_ok (w_lla2ecef input_in_radians) l.
Definition w_ecef2lla_list (radians_out : bool) (l : list vec) : res (list vec) :=
  all_ok (w_ecef2lla radians_out) l.

(** ** Distance and bearing *)
(** One round of the loop, wgs84.py:107-125: the new lambda_lon and the values used later *)
Record round_ := { r_sin_lambda : R; r_cos_lambda : R; r_sin_sigma : R; r_cos_sigma : R; r_sigma : R;
                   r_cos_sq_alpha : R; r_cos2_sigma_m : R; r_next : R }.
Definition inverse_round (sin_u1 cos_u1 sin_u2 cos_u2 delta_lon lambda_lon : R) : res round_ :=
  let sin_lambda := sin lambda_lon in
  let cos_lambda := cos lambda_lon in
  do sin_sigma <- rsqrt ((cos_u2 * sin_lambda) ^ 2 + (cos_u1 * sin_u2 - sin_u1 * cos_u2 * cos_lambda) ^ 2);
  let cos_sigma := sin_u1 * sin_u2 + cos_u1 * cos_u2 * cos_lambda in
  let sigma := atan2 sin_sigma cos_sigma in
  do sin_alpha <- rdiv (cos_u1 * cos_u2 * sin_lambda) sin_sigma;
  let cos_sq_alpha := 1 - sin_alpha ^ 2 in
  let cos2_sigma_m := match rdiv (2 * sin_u1 * sin_u2) cos_sq_alpha with Ok q => cos_sigma - q | Err _ => 0 end in
  let c := WGS84_F / 16 * cos_sq_alpha * (4 + WGS84_F * (4 - 3 * cos_sq_alpha)) in
  let next := delta_lon + (1 - c) * WGS84_F * sin_alpha *
      (sigma + c * sin_sigma * (cos2_sigma_m + c * cos_sigma * (-1 + 2 * cos2_sigma_m ^ 2))) in
  Ok {| r_sin_lambda := sin_lambda; r_cos_lambda := cos_lambda; r_sin_sigma := sin_sigma; r_cos_sigma := cos_sigma;
        r_sigma := sigma; r_cos_sq_alpha := cos_sq_alpha; r_cos2_sigma_m := cos2_sigma_m; r_next := next |}.
(** The loop, wgs84.py:106-129: the last round *)
Fixpoint inverse_loop (max_iter : nat) (tol sin_u1 cos_u1 sin_u2 cos_u2 delta_lon lambda_lon : R) : res round_ :=
  match max_iter with
  | O => Err ValueErr
  | S n =>
      do r <- inverse_round sin_u1 cos_u1 sin_u2 cos_u2 delta_lon lambda_lon;
      if Rltb (Rabs (r_next r - lambda_lon)) tol then Ok r
      else inverse_loop n tol sin_u1 cos_u1 sin_u2 cos_u2 delta_lon (r_next r)
  end.
(** The distance in metres, wgs84.py:131-148 *)
Definition inverse_metres (r : round_) : R :=
  let u_sq := r_cos_sq_alpha r * (WGS84_A ^ 2 - WGS84_B ^ 2) / WGS84_B ^ 2 in
  let a := 1 + u_sq / 16384 * (4096 + u_sq * (-768 + u_sq * (320 - 175 * u_sq))) in
  let b := u_sq / 1024 * (256 + u_sq * (-128 + u_sq * (74 - 47 * u_sq))) in
  let m := r_cos2_sigma_m r in
  let delta_sigma := b * r_sin_sigma r *
      (m + b / 4 * (r_cos_sigma r * (-1 + 2 * m ^ 2)
                    - b / 6 * m * (-3 + 4 * r_sin_sigma r ^ 2) * (-3 + 4 * m ^ 2))) in
  round6 (WGS84_B * a * (r_sigma r - delta_sigma)).
(** WGS84.distance_and_bearing, wgs84.py:71-154 *)
Definition w_distance_and_bearing (loc1 loc2 : point) (units : string) (tol : R) (max_iter : nat) : res (R * R) :=
  if Rzero (fst loc1 - fst loc2) && Rzero (snd loc1 - snd loc2) then Ok (0, 0) else
  let u1 := atan ((1 - WGS84_F) * tan (radians (fst loc1))) in
  let u2 := atan ((1 - WGS84_F) * tan (radians (fst loc2))) in
  let delta_lon := radians (snd loc2 - snd loc1) in
  do r <- inverse_loop max_iter tol (sin u1) (cos u1) (sin u2) (cos u2) delta_lon delta_lon;
  let azimuth := atan2 (cos u2 * r_sin_lambda r) (cos u1 * sin u2 - sin u1 * cos u2 * r_cos_lambda r) in
  do d <- unit_convert (inverse_metres r) "m" units;
  Ok (d, rmod (degrees azimuth) 360).
(** The defaults of tol and max_iter *)
Definition TOL : R := / 10 ^ 12.
Definition MAX_ITER : nat := 200.
(** WGS84.distance and bearing, wgs84.py:22-68; the unit of the unused distance is nmi *)
Definition w_distance (loc1 loc2 : point) (units : string) (tol : R) (max_iter : nat) : res R :=
  do r <- w_distance_and_bearing loc1 loc2 units tol max_iter; Ok (fst r).
Definition w_bearing (loc1 loc2 : point) (tol : R) (max_iter : nat) : res R :=
  do r <- w_distance_and_bearing loc1 loc2 "nmi" tol max_iter; Ok (snd r).

(** ** Point from bearing and distance *)
(** delta_sigma, wgs84.py:205-221 *)
Definition direct_delta (B sin_sigma cos_sigma m : R) : R :=
  B * sin_sigma * (m + B / 4 * (cos_sigma * (-1 + 2 * m ^ 2)
                                - B / 6 * m * (-3 + 4 * sin_sigma ^ 2) * (-3 + 4 * m ^ 2))).
(** The loop, wgs84.py:201-227: sigma, and sin_sigma, cos_sigma and cos2_sigma_m of the last
    round, which are those of sigma_prime *)
Fixpoint direct_loop (max_iter : nat) (tol base B sigma_1 sigma : R) : res (R * R * R * R) :=
  match max_iter with
  | O => Err ValueErr
  | S n =>
      let m := cos (2 * sigma_1 + sigma) in
      let sin_sigma := sin sigma in
      let cos_sigma := cos sigma in
      let sigma' := base + direct_delta B sin_sigma cos_sigma m in
      if Rltb (Rabs (sigma - sigma')) tol then Ok (sigma', sin_sigma, cos_sigma, m)
      else direct_loop n tol base B sigma_1 sigma'
  end.
(** WGS84.point_from_bearing_dist, wgs84.py:157-245 *)
Definition w_point_from_bearing_dist (p : point) (bearing distance : R) (units : string) (tol : R) (max_iter : nat) : res point :=
  do km <- unit_convert distance units "km";
  let s := km * 1000 in
  let phi_1 := radians (fst p) in
  let lambda_1 := radians (snd p) in
  let alpha_1 := radians bearing in
  let sin_alpha_1 := sin alpha_1 in
  let cos_alpha_1 := cos alpha_1 in
  let tan_u1 := (1 - WGS84_F) * tan phi_1 in
  let cos_u1 := 1 / sqrt (1 + tan_u1 ^ 2) in
  let sin_u1 := tan_u1 * cos_u1 in
  let sigma_1 := atan2 tan_u1 cos_alpha_1 in
  let sin_alpha := cos_u1 * sin_alpha_1 in
  let cos_sq_alpha := 1 - sin_alpha ^ 2 in
  let u_sq := cos_sq_alpha * (WGS84_A ^ 2 - WGS84_B ^ 2) / WGS84_B ^ 2 in
  let A := 1 + u_sq / 16384 * (4096 + u_sq * (-768 + u_sq * (320 - 175 * u_sq))) in
  let B := u_sq / 1024 * (256 + u_sq * (-128 + u_sq * (74 - 47 * u_sq))) in
  do base <- rdiv s (WGS84_B * A);
  do last <- direct_loop max_iter tol base B sigma_1 base;
  let '(sigma, sin_sigma, cos_sigma, cos2_sigma_m) := last in
  let x := sin_u1 * sin_sigma - cos_u1 * cos_sigma * cos_alpha_1 in
  do root <- rsqrt (sin_alpha ^ 2 + x ^ 2);
  let phi_2 := atan2 (sin_u1 * cos_sigma + cos_u1 * sin_sigma * cos_alpha_1) ((1 - WGS84_F) * root) in
  let lam := atan2 (sin_sigma * sin_alpha_1) (cos_u1 * cos_sigma - sin_u1 * sin_sigma * cos_alpha_1) in
  let C := WGS84_F / 16 * cos_sq_alpha * (4 + WGS84_F * (4 - 3 * cos_sq_alpha)) in
  let L := lam - (1 - C) * WGS84_F * sin_alpha *
      (sigma + C * sin_alpha * (cos2_sigma_m + C * cos_sigma * (-1 + 2 * cos2_sigma_m ^ 2))) in
  let lambda_2 := lambda_1 + L in
  Ok (degrees phi_2, degrees lambda_2).

(** ** Paths *)
(** geo_linspace, wgs84.py:248-294 *)
Definition w_geo_linspace (start finish : point) (n : nat) : res (list point) :=
  if (n <? 2)%nat then Err ValueErr else
  do db <- w_distance_and_bearing start finish "km" TOL MAX_ITER;
  all_ok (fun i => if (i =? 0)%nat then Ok start else if (i =? n)%nat then Ok finish else
            w_point_from_bearing_dist start (snd db) (fst db * (INR i / INR n)) "km" TOL MAX_ITER) (seq 0 (S n)).
(** geo_circle, wgs84.py:297-332 *)
Definition w_geo_circle (center : point) (radius : R) (units : string) (n : nat) : res (list point) :=
  all_ok (fun i => do f <- rdiv (INR i) (INR n);
            w_point_from_bearing_dist center (f * 360) radius units TOL MAX_ITER) (seq 0 (S n)).
(** ecef_and_geo_linspace, wgs84.py:364-391 *)
Definition w_alts (start_alt finish_alt : R) (n : nat) : list R :=
  map (fun i => start_alt + (finish_alt - start_alt) * INR i / INR n) (seq 0 (S n)).
Definition w_ecef_and_geo_linspace (start finish : point) (start_alt finish_alt : R) (n : nat) : res (list vec * list vec) :=
  do l <- w_geo_linspace start finish n;
  let lla := map (fun e => (fst (fst e), snd (fst e), snd e)) (List.combine l (w_alts start_alt finish_alt n)) in
  do ecef <- w_lla2ecef_list false lla;
  Ok (ecef, lla).
(** ecef_linspace, wgs84.py:335-361: lats, lons = <list of points> unpacks only a list of
    two *)
Definition w_ecef_linspace (start finish : point) (start_alt finish_alt : R) (n : nat) : res (list vec) :=
  do l <- w_geo_linspace start finish n;
  match l with
  | [lats; lons] => w_lla2ecef_list false (map (fun e => (fst (fst e), snd (fst e), snd e))
      (List.combine (List.combine [fst lats; snd lats] [fst lons; snd lons]) (w_alts start_alt finish_alt n)))
  | _ => Err ValueErr
  end.
