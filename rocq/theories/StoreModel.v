(** Model of simpy stores as used by UPSTAGE: [simpy.Store],
    [simpy.FilterStore], [SortedFilterStore] (resources/sorted.py:56-100), their
    self-monitoring variants (resources/monitoring.py:51-165,267-274) and the
    UPSTAGE request events [Put], [Get], [FilterGet], [SortedFilterGet]
    (events.py:262-348,536-632,714-737; sorted.py:103-133).

    SimPy itself is not in the repository; the queue discipline below is the one of simpy
    4.1.1 (resources/base.py, resources/store.py), part of the trusted base. *)
From Verif Require Import Common.

Section Store.

(** Items; python [==] on items; python truthiness of items. *)
Variable A : Type.
Variable eqb : A -> A -> bool.
Variable truthy : A -> bool.
(** Recorded summary of the items (monitoring.py:81,140: [len] by default). *)
Variable item_func : list A -> Z.

(** Which store class. *)
Inductive kind := KStore | KFilter | KSorted.

(** Arguments of a get request.  [KStore] ignores them; [KFilter] uses
    [g_filter]; [KSorted] all of them (sorted.py:43-53).  Sort keys are
    integers; python only compares them with [<] and [>]. *)
Record greq := mkG { g_filter : A -> bool; g_sorter : option (A -> Z); g_reverse : bool }.

(** [list.remove(x)]: drop the first element [==] to [x]. *)
Fixpoint list_remove (x : A) (l : list A) : list A :=
  match l with
  | [] => []
  | y :: l' => if eqb y x then l' else y :: list_remove x l'
  end.

(** simpy Store._do_get: pop the first item; falsy result. *)
Definition do_get_store (items : list A) : option (A * list A) :=
  match items with [] => None | x :: l => Some (x, l) end.

(** simpy FilterStore._do_get: first item passing the filter; returns True. *)
Definition do_get_filter (g : greq) (items : list A) : option (A * list A) :=
  match find (g_filter g) items with
  | Some x => Some (x, list_remove x items)
  | None => None
  end.

(** The search loop of sorted.py:84-96: [min_item], [min_val], scanning [l]. *)
Fixpoint sorted_scan (g : greq) (l : list A) (best : option (A * option Z)) : option (A * option Z) :=
  match l with
  | [] => best
  | x :: l' =>
      if g_filter g x then
        match g_sorter g with
        | Some key =>
            let v := key x in
            let better := match best with
                          | Some (_, Some m) => if g_reverse g then Z.gtb v m else Z.ltb v m
                          | _ => true
                          end in
            sorted_scan g l' (if better then Some (x, Some v) else best)
        | None => Some (x, None)
        end
      else sorted_scan g l' best
  end.

(** sorted.py:83-100.  [if min_item:] tests truthiness; the initial
    [min_item = None] is falsy. *)
Definition do_get_sorted (g : greq) (items : list A) : option (A * list A) :=
  match sorted_scan g items None with
  | Some (x, _) => if truthy x then Some (x, list_remove x items) else None
  | None => None
  end.

Definition do_get (k : kind) (g : greq) (items : list A) : option (A * list A) :=
  match k with
  | KStore => do_get_store items
  | KFilter => do_get_filter g items
  | KSorted => do_get_sorted g items
  end.

(** Result of [_do_get] as used by the trigger loop: Store returns None
    (monitoring.py:103-107 too), the filter stores return True
    (sorted.py:100, monitoring.py:161-165,270-274). *)
Definition proceed (k : kind) : bool := match k with KStore => false | _ => true end.

(** A triggered request event waiting in the agenda. *)
Inductive ev := EPut (r : nat) (x : A) | EGet (r : nat) (x : A).

(** What happens, in order; the observations properties are stated on. *)
Inductive happening :=
| HStored (r : nat) (x : A)      (* put request r granted: x enters the store *)
| HTaken (r : nat) (x : A)       (* get request r granted: x leaves the store *)
| HPutDone (r : nat) (x : A)     (* the put event is processed *)
| HDelivered (r : nat) (x : A)   (* the getter is resumed with x *)
| HLost (r : nat) (x : A)        (* the get event is processed, nobody receives x *)
| HCancelled (r : nat)           (* request removed from its queue *)
| HIllegal.                      (* not a possible behaviour of simpy *)

Record st := mkSt {
  s_kind : kind;
  s_cap : option nat;                (* None: infinity *)
  s_now : Q;
  s_items : list A;
  s_putq : list (nat * A);
  s_getq : list (nat * greq);
  s_agenda : list ev;                (* triggered, not yet processed; FIFO *)
  s_gone : list nat;                 (* granted gets whose waiter gave up *)
  s_next : nat;                      (* next request number *)
  s_quant : list (Q * Z) }.          (* _quantities, NEWEST FIRST *)

(** monitoring.py:79-82 *)
Definition init (k : kind) (c : option nat) (t0 : Q) : st :=
  mkSt k c t0 [] [] [] [] [] 0 [(t0, item_func [])].

(** monitoring.py:84-87: [_record].  Never called with "environment". *)
Definition record (now : Q) (items : list A) (quant : list (Q * Z)) : list (Q * Z) :=
  let v := item_func items in
  match quant with
  | (_, w) :: _ => if Z.eqb v w then quant else (now, v) :: quant
  | [] => (now, v) :: quant
  end.

(** Store._do_put: grant when there is room; falsy result, so the trigger
    loop looks at the head of the queue only. *)
Definition has_room (c : option nat) (items : list A) : bool :=
  match c with Some n => Nat.ltb (length items) n | None => true end.

(** simpy [_trigger_put] around [Store._do_put] with the recording of
    monitoring.py:89-91,97-101. *)
Definition trig_put (s : st) : st * list happening :=
  match s_putq s with
  | (r, x) :: q =>
      if has_room (s_cap s) (s_items s) then
        let items' := s_items s ++ [x] in
        let qn := record (s_now s) items' (record (s_now s) items' (s_quant s)) in
        (mkSt (s_kind s) (s_cap s) (s_now s) items' q (s_getq s)
              (s_agenda s ++ [EPut r x]) (s_gone s) (s_next s) qn, [HStored r x])
      else (mkSt (s_kind s) (s_cap s) (s_now s) (s_items s) (s_putq s) (s_getq s)
              (s_agenda s) (s_gone s) (s_next s) (record (s_now s) (s_items s) (s_quant s)), [])
  | [] => (mkSt (s_kind s) (s_cap s) (s_now s) (s_items s) (s_putq s) (s_getq s)
              (s_agenda s) (s_gone s) (s_next s) (record (s_now s) (s_items s) (s_quant s)), [])
  end.

(** simpy [_trigger_get] loop around [_do_get] (recording each grant,
    monitoring.py:103-107,161-165,270-274): returns remaining queue, items,
    grants in order, recorded quantities. *)
Fixpoint get_loop (k : kind) (now : Q) (q : list (nat * greq)) (items : list A) (quant : list (Q * Z))
  : list (nat * greq) * list A * list (nat * A) * list (Q * Z) :=
  match q with
  | [] => ([], items, [], quant)
  | (r, g) :: q' =>
      match do_get k g items with
      | Some (x, items') =>
          let quant' := record now items' quant in
          if proceed k then
            let '(qq, ii, gr, qn) := get_loop k now q' items' quant' in
            (qq, ii, (r, x) :: gr, qn)
          else (q', items', [(r, x)], quant')
      | None =>
          if proceed k then
            let '(qq, ii, gr, qn) := get_loop k now q' items quant in
            ((r, g) :: qq, ii, gr, qn)
          else (q, items, [], quant)
      end
  end.

(** [_trigger_get] with the final recording (monitoring.py:93-95). *)
Definition trig_get (s : st) : st * list happening :=
  let '(qq, ii, gr, qn) := get_loop (s_kind s) (s_now s) (s_getq s) (s_items s) (s_quant s) in
  (mkSt (s_kind s) (s_cap s) (s_now s) ii (s_putq s) qq
        (s_agenda s ++ map (fun rx => EGet (fst rx) (snd rx)) gr) (s_gone s) (s_next s)
        (record (s_now s) ii qn),
   map (fun rx => HTaken (fst rx) (snd rx)) gr).

(** A new put: simpy [Put.__init__] appends to the queue and calls
    [_trigger_put(None)]  (events.py:337-348 creates it once per [Put]). *)
Definition op_put (s : st) (x : A) : st * list happening :=
  trig_put (mkSt (s_kind s) (s_cap s) (s_now s) (s_items s) (s_putq s ++ [(s_next s, x)]) (s_getq s)
                 (s_agenda s) (s_gone s) (S (s_next s)) (s_quant s)).

(** A new get (events.py:583-595). *)
Definition op_get (s : st) (g : greq) : st * list happening :=
  trig_get (mkSt (s_kind s) (s_cap s) (s_now s) (s_items s) (s_putq s) (s_getq s ++ [(s_next s, g)])
                 (s_agenda s) (s_gone s) (S (s_next s)) (s_quant s)).

Definition is_rid {B} (r : nat) (p : nat * B) : bool := Nat.eqb (fst p) r.
Definition drop_rid {B} (r : nat) (q : list (nat * B)) : list (nat * B) :=
  filter (fun p => negb (is_rid r p)) q.
Definition is_get_of (r : nat) (e : ev) : bool := match e with EGet n _ => Nat.eqb n r | EPut _ _ => false end.

(** The waiter of request [r] is interrupted: [BaseRequestEvent.cancel]
    (events.py:278-284) calls simpy's [cancel] unless the request is processed;
    that removes the request from its queue only if it is not triggered.  Either
    way the waiter no longer listens; [s_gone] remembers this for granted gets. *)
Definition op_cancel (s : st) (r : nat) : st * list happening :=
  let queued := existsb (is_rid r) (s_putq s) || existsb (is_rid r) (s_getq s) in
  let granted := existsb (is_get_of r) (s_agenda s) in
  (mkSt (s_kind s) (s_cap s) (s_now s) (s_items s) (drop_rid r (s_putq s)) (drop_rid r (s_getq s))
        (s_agenda s) (if granted then r :: s_gone s else s_gone s) (s_next s) (s_quant s),
   if queued then [HCancelled r] else []).

(** The oldest triggered request event is processed: first the resource's
    callback (the opposite trigger), then the waiter. *)
Definition op_process (s : st) : st * list happening :=
  match s_agenda s with
  | [] => (s, [HIllegal])
  | e :: ag =>
      let s1 := mkSt (s_kind s) (s_cap s) (s_now s) (s_items s) (s_putq s) (s_getq s)
                     ag (s_gone s) (s_next s) (s_quant s) in
      match e with
      | EPut r x => let '(s2, h) := trig_get s1 in (s2, h ++ [HPutDone r x])
      | EGet r x => let '(s2, h) := trig_put s1 in
                    (s2, h ++ [if existsb (Nat.eqb r) (s_gone s) then HLost r x else HDelivered r x])
      end
  end.

(** Time moves on only when nothing triggered is left to process. *)
Definition op_time (s : st) (t : Q) : st * list happening :=
  match s_agenda s with
  | [] => if Qleb (s_now s) t then
            (mkSt (s_kind s) (s_cap s) t (s_items s) (s_putq s) (s_getq s)
                  (s_agenda s) (s_gone s) (s_next s) (s_quant s), [])
          else (s, [HIllegal])
  | _ => (s, [HIllegal])
  end.

Inductive op := OpPut (x : A) | OpGet (g : greq) | OpCancel (r : nat) | OpProcess | OpTime (t : Q).

Definition step (s : st) (o : op) : st * list happening :=
  match o with
  | OpPut x => op_put s x
  | OpGet g => op_get s g
  | OpCancel r => op_cancel s r
  | OpProcess => op_process s
  | OpTime t => op_time s t
  end.

(** Run a schedule, collecting the happenings (oldest first). *)
Fixpoint run (s : st) (os : list op) : st * list happening :=
  match os with
  | [] => (s, [])
  | o :: os' => let '(s1, h1) := step s o in
                let '(s2, h2) := run s1 os' in (s2, h1 ++ h2)
  end.

End Store.

Arguments mkG {A}. Arguments g_filter {A}. Arguments g_sorter {A}. Arguments g_reverse {A}.
Arguments OpPut {A}. Arguments OpGet {A}. Arguments OpCancel {A}. Arguments OpProcess {A}. Arguments OpTime {A}.
Arguments HStored {A}. Arguments HTaken {A}. Arguments HPutDone {A}. Arguments HDelivered {A}.
Arguments HLost {A}. Arguments HCancelled {A}. Arguments HIllegal {A}.
Arguments EPut {A}. Arguments EGet {A}.
Arguments mkSt {A}. Arguments s_kind {A}. Arguments s_cap {A}. Arguments s_now {A}. Arguments s_items {A}.
Arguments s_putq {A}. Arguments s_getq {A}. Arguments s_agenda {A}. Arguments s_gone {A}.
Arguments s_next {A}. Arguments s_quant {A}.
