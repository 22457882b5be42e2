(** What knowledge operations should do, on maps from names to values. *)
From Verif Require Import Common StateModel KnowledgeModel.

Section Spec.
Variable V : Type.
Definition amap := key -> option (kval V).
Definition look (s : kst V) : amap := fun n => kget n (n_dict s).
Definition same (m m' : amap) : Prop := forall k, m' k = m k.
Definition changed (m m' : amap) (n : key) (x : option (kval V)) : Prop :=
  m' n = x /\ forall k, k <> n -> m' k = m k.
(** [m'] is [m] with the pairs of [l] put in / the names of [l] removed. *)
Definition filled (m m' : amap) (l : list (key * kval V)) : Prop :=
  (forall n v, In (n, v) l -> m' n = Some v) /\ (forall n, ~ In n (map fst l) -> m' n = m n).
Definition emptied (m m' : amap) (l : list key) : Prop :=
  (forall n, In n l -> m' n = None) /\ (forall n, ~ In n l -> m' n = m n).

(** One operation: knowledge before, result, knowledge after. *)
Definition meets (m : amap) (o : nop V) (r : nout V) (m' : amap) : Prop :=
  match o with
  | NGet n must =>
      same m m' /\ r = match m n with Some v => NValue v | None => if must then NSimError else NAbsent end
  | NSet n v ow =>
      match m n, ow with
      | Some _, false => same m m' /\ r = NSimError
      | _, _ => changed m m' n (Some v) /\ r = NOk
      end
  | NClear n =>
      match m n with
      | Some _ => changed m m' n None /\ r = NOk
      | None => same m m' /\ r = NSimError
      end
  | NTake n =>
      match m n with
      | Some v => changed m m' n None /\ r = NValue v
      | None => same m m' /\ r = NSimError
      end
  | NGetBulk l must =>
      same m m' /\
      ((r = NSimError /\ must = true /\ exists n, In n l /\ m n = None) \/
       exists res, r = NMap res /\ (must = true -> forall n, In n l -> m n <> None) /\
         (forall n, In n l -> kget n res = Some (m n)) /\ (forall n, ~ In n l -> kget n res = None))
  | NCreateEvent n => True
  | NSucceed n p => True
  | NFire _ _ | NReset _ | NProcessed _ => same m m'
  (* the bulk changes, when they succeed *)
  | NSetBulk l ow =>
      (r = NOk /\ filled m m' l /\ (ow = false -> forall n, In n (map fst l) -> m n = None)) \/
      r = NSimError
  | NClearBulk l =>
      (r = NOk /\ emptied m m' l /\ NoDup l /\ forall n, In n l -> m n <> None) \/ r = NSimError
  | NTakeBulk l =>
      (exists res, r = NMap res /\ emptied m m' l /\ NoDup l /\ (forall n, In n l -> m n <> None) /\
         (forall n, In n l -> kget n res = Some (m n)) /\ (forall n, ~ In n l -> kget n res = None)) \/
      r = NSimError
  end.

(** Exactly when and how a bulk change goes wrong: the names before the first
    offending one have been changed, nothing else has. *)
Definition stops_half_way (m : amap) (o : nop V) (m' : amap) : Prop :=
  match o with
  | NSetBulk l ow => ow = false /\ exists l1 n v l2, l = l1 ++ (n, v) :: l2 /\ m n <> None /\
      (forall k, In k (map fst l1) -> m k = None) /\ filled m m' l1
  | NClearBulk l | NTakeBulk l => exists l1 n l2, l = l1 ++ n :: l2 /\ NoDup l1 /\
      (forall k, In k l1 -> m k <> None) /\ (m n = None \/ In n l1) /\ emptied m m' l1
  | _ => True
  end.

(** Python dictionaries have distinct keys. *)
Definition wf_op (o : nop V) : Prop := match o with NSetBulk l _ => NoDup (map fst l) | _ => True end.

(** Does an operation name [n]? *)
Definition mentions (n : key) (o : nop V) : Prop :=
  match o with
  | NGet k _ | NSet k _ _ | NClear k | NTake k | NCreateEvent k | NSucceed k _ => k = n
  | NSetBulk l _ => In n (map fst l)
  | NClearBulk l | NGetBulk l _ | NTakeBulk l => In n l
  | NFire _ _ | NReset _ | NProcessed _ => False
  end.

(** The value of [n] according to a history: the last thing done to it. *)
Fixpoint known (n : key) (cur : option (kval V)) (tr : list (nop V * nout V)) : option (kval V) :=
  match tr with
  | [] => cur
  | (o, r) :: tr' =>
      known n
        (match o, r with
         | NSet k v _, NOk => if Z.eqb k n then Some v else cur
         | NClear k, NOk | NTake k, NValue _ | NSucceed k _, NOk | NSucceed k _, NRuntime | NSucceed k _, NComplete =>
             if Z.eqb k n then None else cur
         | NSetBulk l _, NOk => match kget n l with Some v => Some v | None => cur end
         | NClearBulk l, NOk | NTakeBulk l, NMap _ => if existsb (Z.eqb n) l then None else cur
         | NCreateEvent k, NEvent e => if Z.eqb k n then Some (KEvent e) else cur
         | _, _ => cur
         end) tr'
  end.
Definition bulk_failed (p : nop V * nout V) : Prop :=
  match p with
  | (NSetBulk _ _, NSimError) | (NClearBulk _, NSimError) | (NTakeBulk _, NSimError) => True
  | _ => False
  end.
End Spec.
Arguments look {V}. Arguments same {V}. Arguments changed {V}. Arguments meets {V}. Arguments stops_half_way {V}.
Arguments wf_op {V}. Arguments mentions {V}. Arguments known {V}. Arguments bulk_failed {V}. Arguments filled {V}. Arguments emptied {V}.
