(** Model of data_types.py: locations and location data.

    Numbers are Coq's real numbers, units those of UnitsModel, the earth (stage_model) is
    Spherical.  Representations as text are left out; subclasses too.  Objects are maps of
    attributes where assignment matters, records of coordinates elsewhere. *)
From Coq Require Import Reals List Bool String ZArith.
From Verif Require Import GeoModel.
Import ListNotations.
Open Scope bool_scope.
Open Scope R_scope.

Inductive exn := ValueE | TypeE | IndexE | FrozenE | AttrE | ZeroE.
Inductive result (A : Type) := Ret (x : A) | Raise (e : exn).
Arguments Ret {A}. Arguments Raise {A}.
Definition rbind {A B} (x : result A) (f : A -> result B) : result B := match x with Ret a => f a | Raise e => Raise e end.
Notation "'let!' x := e 'in' k" := (rbind e (fun x => k)) (at level 200, x name, right associativity).
Definition lift {A} (r : res A) : result A :=
  match r with Ok x => Ret x | Err DivisionErr => Raise ZeroE | Err ValueErr => Raise ValueE end.

(** ** Attributes *)
Inductive aval := Num (r : R) | Flag (b : bool) | Names (l : list string) | Thing (n : nat).
Inductive cls := CCart | CGeo.
Record obj := mkObj { class : cls; attrs : list (string * aval) }.
Fixpoint lookup (n : string) (l : list (string * aval)) : option aval :=
  match l with [] => None | (k, v) :: l' => if String.eqb k n then Some v else lookup n l' end.
Fixpoint store (n : string) (v : aval) (l : list (string * aval)) : list (string * aval) :=
  match l with [] => [(n, v)] | (k, w) :: l' => if String.eqb k n then (k, v) :: l' else (k, w) :: store n v l' end.
Fixpoint remove (n : string) (l : list (string * aval)) : list (string * aval) :=
  match l with [] => [] | (k, w) :: l' => if String.eqb k n then l' else (k, w) :: remove n l' end.
Definition getattr (o : obj) (n : string) : result aval := match lookup n (attrs o) with Some v => Ret v | None => Raise AttrE end.
(** Location.__setattr__, data_types.py:69-78 *)
Definition setattr (o : obj) (n : string) (v : aval) : result obj :=
  match lookup "_no_override" (attrs o) with
  | Some (Names l) => if existsb (String.eqb n) l then Raise FrozenE else Ret (mkObj (class o) (store n v (attrs o)))
  | Some _ => Raise TypeE
  | None => Ret (mkObj (class o) (store n v (attrs o)))
  end.
(** del o.n: not overridden *)
Definition delattr (o : obj) (n : string) : result obj :=
  match lookup n (attrs o) with Some _ => Ret (mkObj (class o) (remove n (attrs o))) | None => Raise AttrE end.
Fixpoint set_all (o : obj) (l : list (string * aval)) : result obj :=
  match l with [] => Ret o | (n, v) :: l' => let! o' := setattr o n v in set_all o' l' end.
(** CartesianLocation.__init__, data_types.py:120-147 *)
Definition new_cart (x y z : R) (use_altitude_units : bool) : result obj :=
  set_all (mkObj CCart []) [("x", Num x); ("y", Num y); ("z", Num z); ("use_altitude_units", Flag use_altitude_units);
                            ("_no_override", Names ["x"; "y"; "z"; "use_altitude_units"])]%string.
(** GeodeticLocation.__init__, data_types.py:301-328 *)
Definition new_geo (lat lon alt : R) (in_radians : bool) : result obj :=
  set_all (mkObj CGeo []) [("lat", Num lat); ("lon", Num lon); ("alt", Num alt); ("in_radians", Flag in_radians);
                           ("_no_override", Names ["lat"; "lon"; "alt"; "in_radians"])]%string.
(** CartesianLocation.copy, data_types.py:192-200, GeodeticLocation.copy, data_types.py:401-412.
    (Attributes hold numbers and flags unless _no_override has been changed; the
    constructors do not check.) *)
Definition num (o : obj) (n : string) : result R := let! v := getattr o n in match v with Num r => Ret r | _ => Raise TypeE end.
Definition flag (o : obj) (n : string) : result bool := let! v := getattr o n in match v with Flag b => Ret b | _ => Raise TypeE end.
Definition copy (o : obj) : result obj :=
  match class o with
  | CCart => let! x := num o "x" in let! y := num o "y" in let! z := num o "z" in let! f := flag o "use_altitude_units" in new_cart x y z f
  | CGeo => let! x := num o "lat" in let! y := num o "lon" in let! z := num o "alt" in let! f := flag o "in_radians" in new_geo x y z f
  end.

(** ** Coordinates *)
Record cart := mkCart { cx : R; cy : R; cz : R; use_alt : bool }.
Record geo := mkGeo { glat : R; glon : R; galt : R; in_rad : bool }.
Inductive thing := Cart (c : cart) | Geo (g : geo) | Other.
(** The stage's distance_units and altitude_units *)
Record stage := mkStage { dist_units : string; altitude_units : string }.

(** CartesianLocation._as_array, data_types.py:172-182 *)
Definition as_array (st : stage) (c : cart) : result vec :=
  let! height := (if use_alt c then lift (unit_convert (cz c) (altitude_units st) (dist_units st)) else Ret (cz c)) in
  Ret (cx c, cy c, height).
(** CartesianLocation.__sub__, data_types.py:231-246 *)
Definition cart_sub (st : stage) (c : cart) (other : thing) : result R :=
  match other with
  | Cart d => let! a := as_array st c in let! b := as_array st d in
      let '(ax, ay, az) := a in let '(bx, by_, bz) := b in
      lift (rsqrt ((ax - bx) ^ 2 + (ay - by_) ^ 2 + (az - bz) ^ 2))
  | _ => Raise ValueE
  end.
(** straight_line_distance, data_types.py:210-216 *)
Definition cart_straight := cart_sub.
(** CartesianLocation.__eq__, data_types.py:248-262 *)
Definition cart_eq (st : stage) (c : cart) (other : thing) : result bool :=
  match other with
  | Cart _ => let! dist := cart_sub st c other in Ret (Rleb (Rabs dist) 0.00001)
  | _ => Raise ValueE
  end.
(** CartesianLocation.__getitem__, data_types.py:218-229 *)
Definition cart_item (c : cart) (i : Z) : result R :=
  if ((0 <=? i) && (i <=? 2))%Z then Ret (if (i =? 0)%Z then cx c else if (i =? 1)%Z then cy c else cz c) else Raise ValueE.

(** GeodeticLocation.to_radians and to_degrees, data_types.py:365-391 *)
Definition to_rad (g : geo) : geo := if in_rad g then g else mkGeo (radians (glat g)) (radians (glon g)) (galt g) true.
Definition to_deg (g : geo) : geo := if in_rad g then mkGeo (degrees (glat g)) (degrees (glon g)) (galt g) false else g.
(** latlon, data_types.py:356-363 *)
Definition latlon (g : geo) : point := (glat (to_deg g), glon (to_deg g)).
(** GeodeticLocation.__sub__, data_types.py:469-490 *)
Definition geo_sub (st : stage) (g : geo) (other : thing) : result R :=
  match other with
  | Geo h => lift (distance (glat (to_deg g), glon (to_deg g)) (glat (to_deg h), glon (to_deg h)) (dist_units st))
  | _ => Raise ValueE
  end.
(** dist_with_altitude, data_types.py:414-427 *)
Definition dist_with_altitude (st : stage) (g h : geo) : result R :=
  let! dist := geo_sub st g (Geo h) in
  let! alt := lift (unit_convert (Rabs (galt g - galt h)) (altitude_units st) (dist_units st)) in
  lift (rsqrt (alt ^ 2 + dist ^ 2)).
(** GeodeticLocation.straight_line_distance, data_types.py:429-452 *)
Definition geo_straight (st : stage) (g : geo) (other : thing) : result R :=
  match other with
  | Geo h =>
      let! ag := lift (unit_convert (galt (to_deg g)) (altitude_units st) "m") in
      let! ah := lift (unit_convert (galt (to_deg h)) (altitude_units st) "m") in
      let '(ax, ay, az) := lla2ecef (glat (to_deg g), glon (to_deg g), ag) in
      let '(bx, by_, bz) := lla2ecef (glat (to_deg h), glon (to_deg h), ah) in
      let! d := lift (rsqrt ((bx - ax) ^ 2 + (by_ - ay) ^ 2 + (bz - az) ^ 2)) in
      lift (unit_convert d "m" (dist_units st))
  | _ => Raise TypeE
  end.
Definition Reqb (a b : R) : bool := if Req_EM_T a b then true else false.
(** GeodeticLocation.__eq__, data_types.py:492-513 *)
Definition geo_eq (g : geo) (other : thing) : result bool :=
  match other with
  | Geo h =>
      let h' := if Bool.eqb (in_rad h) (in_rad g) then h else if in_rad g then to_rad h else to_deg h in
      Ret (Reqb (glat g) (glat h') && Reqb (glon g) (glon h') && Reqb (galt g) (galt h'))
  | _ => Raise ValueE
  end.
(** GeodeticLocation.__getitem__, data_types.py:454-467 *)
Definition geo_item (g : geo) (i : Z) : result R :=
  if ((0 <=? i) && (i <=? 2))%Z then Ret (if (i =? 0)%Z then glat g else if (i =? 1)%Z then glon g else galt g) else Raise IndexE.
(** _key, data_types.py:202-208 and 393-399; __hash__ is the hash of the key, 264-270 and 515-521 *)
Definition key (t : thing) : option (R * R * R * bool) :=
  match t with
  | Cart c => Some (cx c, cy c, cz c, use_alt c)
  | Geo g => Some (glat g, glon g, galt g, in_rad g)
  | Other => None
  end.
(** Iteration over an object with __getitem__ only: items 0, 1, ... until IndexError.
    [None]: fuel exhausted. *)
Fixpoint iterate (item : Z -> result R) (fuel : nat) (i : Z) : option (result (list R)) :=
  match fuel with
  | O => None
  | S n => match item i with
           | Ret r => match iterate item n (i + 1)%Z with Some (Ret l) => Some (Ret (r :: l)) | x => x end
           | Raise IndexE => Some (Ret [])
           | Raise e => Some (Raise e)
           end
  end.

(** ** Data *)
(** CartesianLocationData, data_types.py:524-567; the flag's default is True (that of
    CartesianLocation is False, data_types.py:126) *)
Definition cart_data := cart.
Definition cart_data_default (x y z : R) : cart_data := mkCart x y z true.
Definition cart_default (x y z : R) : cart := mkCart x y z false.
Definition make_cart (d : cart_data) : cart := mkCart (cx d) (cy d) (cz d) (use_alt d).
Definition cart_data_eq (a b : cart_data) : bool := Reqb (cx a) (cx b) && Reqb (cy a) (cy b) && Reqb (cz a) (cz b).
(** GeodeticLocationData, data_types.py:570-632 *)
Definition geo_data := geo.
Definition make_geo (d : geo_data) : geo := mkGeo (glat d) (glon d) (galt d) (in_rad d).
Definition data_latlon (d : geo_data) : point :=
  (if in_rad d then degrees (glat d) else glat d, if in_rad d then degrees (glon d) else glon d).
Definition geo_data_eq (a b : geo_data) : bool :=
  let '(olat, olon) := if Bool.eqb (in_rad b) (in_rad a) then (glat b, glon b)
                       else if in_rad a then (radians (glat b), radians (glon b)) else (degrees (glat b), degrees (glon b)) in
  Reqb (glat a) olat && Reqb (glon a) olon && Reqb (galt a) (galt b).
