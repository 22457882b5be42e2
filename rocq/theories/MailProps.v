(** C106-C110: messages, their order, and what listeners are called with. *)
From Coq Require Import Qround Permutation.
From Verif Require Import Common MailModel MailSpec MailProofs.
From Verif Require CommsModel.

(** ** C106 *)
(** A message made from text, a dictionary or a MessageContent is new, is from the source to
    the destination and has what was given as its content. *)
Theorem C106_made : forall mode now heap p source destination, (forall id, p <> PMsg id) ->
  exists m, make_put mode now heap p source destination = (heap ++ [m], length heap) /\
    g_from m = source /\ g_to m = destination /\ g_mode m = mode /\ g_created m = now /\
    match p with
    | PText s => g_content m = mkK DEmpty (Some s)
    | PDict d => g_content m = mkK (DUser d) None
    | PContent c => g_content m = c
    | PMsg _ => False
    end.
Proof. intros mode now heap p source destination N. destruct p; [| | |elim (N id); reflexivity]; eexists; repeat split. Qed.
Example C106_made_ex : make_put (Some 7%nat) (3) [] (PText 5) 1 2 = ([mkG 1 (mkK DEmpty (Some 5%nat)) 2 None None None (Some 7%nat) 3], 0%nat) /\ forall id, PText 5 <> PMsg id.
Proof. split; [reflexivity|discriminate]. Qed.
(** The callback is called with the content the message was made with, and only with what was
    delivered to its store: messages to its actor, or what others put there. *)
Theorem C106_heard : forall f c0 t0 os s tr a i c t, run f (init c0 t0) os = (s, tr) -> In (AHeard a i c t) tr ->
  match i with
  | IMsg k id => exists source mode t1 t2 t3, In (AMade id source a c mode t1) tr /\ In (APut k id source a t2) tr /\ In (ADeliver k id source a t3) tr
  | IRaw x => c = mkK (DMessage x) None /\ In (ARaw a x) tr
  end.
Proof.
  intros f c0 t0 os s tr a i c t R I. pose proof (base_run f os _ _ (base_init c0 t0)) as B. rewrite R in B. destruct B as (_ & H & _). cbn in H. pose proof (h_heard _ _ H a i c t I) as X.
  destruct i as [k id|x]; [|exact X]. destruct X as (src & mode & t1 & t2 & X1 & X2). destruct (h_del _ _ H _ _ _ _ _ X2) as (t' & X3). exists src, mode, t1, t', t2. auto.
Qed.
(** It is called once for each, in the order in which they came. *)
Theorem C106_in_order : forall f c0 t0 os s tr a, run f (init c0 t0) os = (s, tr) ->
  prefix (heard a tr) (came a tr) /\ (idle s -> x_loop (t_box s a) <> LOff -> heard a tr = came a tr).
Proof.
  intros f c0 t0 os s tr a R. pose proof (base_run f os _ _ (base_init c0 t0)) as B. rewrite R in B. destruct B as (_ & _ & B & _). cbn in B. destruct (B a) as (l & E & X1 & X2 & X3). split; [exists l; exact E|].
  intros [Q _] L. rewrite Q in *. cbn in X1, X2. destruct (x_loop (t_box s a)); [congruence| |discriminate]. rewrite (X3 eq_refl) in X1. cbn in X1. subst l. rewrite E, app_nil_r. reflexivity.
Qed.
(** Of every put there is one end: the message arrives, or is given up, or it is still on its
    way, and nothing is on its way when nothing is left to happen. *)
Theorem C106_one_end : forall f c0 t0 os s tr, run f (init c0 t0) os = (s, tr) ->
  NoDup (all_puts tr) /\ NoDup (settled tr) /\ (forall k, In k (settled tr) -> In k (all_puts tr)) /\
  (idle s -> forall k, In k (all_puts tr) -> In k (settled tr)).
Proof.
  intros f c0 t0 os s tr R. pose proof (base_run f os _ _ (base_init c0 t0)) as B. rewrite R in B. cbn in B. destruct B as (O & _ & _ & K & P).
  assert (N : NoDup (all_puts tr)) by (rewrite K; apply seq_NoDup). assert (N2 : NoDup (settled tr ++ fly s)) by (eapply Permutation_NoDup; eassumption). split; [exact N|]. split.
  - clear -N2. induction (settled tr) as [|k l IH]; [constructor|]. inversion N2; subst. constructor; [intro I; apply H1; apply in_or_app; left; exact I|auto].
  - split; [intros k I; eapply Permutation_in; [apply Permutation_sym; exact P|]; apply in_or_app; left; exact I|].
    intros [Q L] k I. apply (Permutation_in k P) in I. apply in_app_or in I as [I|I]; [exact I|]. exfalso. unfold fly in I. rewrite Q in I. cbn in I. destruct O as [O1 O2]. rewrite Q in O1. cbn in O1. destruct (t_loop s); [congruence| |discriminate]. rewrite (O2 eq_refl) in I. destruct I.
Qed.
Definition f0 : cfg := mkF 5 1 0 None.
Definition open_ : CommsModel.conf := CommsModel.mkC false [] [].
Definition two : list op := [UMake (PText 5) 1 2; UMake (PDict 6) 1 2; URun; UListen 2; UPut 0; UPut 1] ++ repeat UStep 10 ++ [URaw 2 9; UStep].
Example C106_ex : let r := run f0 (init open_ 0) two in
  heard 2 (snd r) = [IMsg 0 0; IMsg 1 1; IRaw 9] /\ came 2 (snd r) = heard 2 (snd r) /\ all_puts (snd r) = [0; 1]%nat /\ settled (snd r) = [0; 1]%nat /\
  idle (fst r) /\ x_loop (t_box (fst r) 2) <> LOff /\ In (AHeard 2 (IMsg 1 1) (mkK (DUser 6) None) 0) (snd r).
Proof. vm_compute. repeat split; try discriminate. repeat (try (left; reflexivity); right). Qed.

(** ** C107 *)
(** make_put called with a Message does not look at its source and destination: here 3 is to
    send a message it was given to 4, and it goes to 2, from 1. *)
Theorem C107_redirect_refuted : ~ (forall mode now heap p source destination heap' id m,
  make_put mode now heap p source destination = (heap', id) -> nth_error heap' id = Some m -> g_from m = source /\ g_to m = destination).
Proof. intro H. destruct (H None 0 [mkG 1 (mkK DEmpty None) 2 None None None None 0] (PMsg 0) 3%nat 4%nat _ _ _ eq_refl eq_refl) as [X _]. discriminate. Qed.
Theorem C107_goes_back_refuted : ~ (forall f c0 t0 os s tr, good f -> run f (init c0 t0) os = (s, tr) -> idle s ->
  forall p source destination id, In (UMake p source destination) os -> p = PMsg id -> In (UPut id) os -> exists k t, In (ADeliver k id source destination t) tr).
Proof.
  intro H. pose (os := [URun; UMake (PText 5) 1 2; UMake (PMsg 0) 3 4; UPut 0] ++ repeat UStep 5). assert (ID : idle (fst (run f0 (init open_ 0) os))) by (split; vm_compute; [reflexivity|discriminate]).
  destruct (H f0 open_ 0 os _ _ ltac:(split; cbn; lra) (surjective_pairing _) ID (PMsg 0) 3%nat 4%nat 0%nat) as (k & t & X); [right; right; left; reflexivity|reflexivity|right; right; right; left; reflexivity|]. vm_compute in X. repeat (destruct X as [X|X]; [discriminate|]). destruct X.
Qed.
Theorem C107_others_partial : forall mode now heap p source destination heap' id m, (forall i, p <> PMsg i) ->
  make_put mode now heap p source destination = (heap', id) -> nth_error heap' id = Some m -> g_from m = source /\ g_to m = destination.
Proof.
  intros mode now heap p source destination heap' id m N E M. destruct (C106_made mode now heap p source destination N) as (m' & E' & A & B & _). rewrite E' in E. injection E as <- <-.
  rewrite nth_error_app2, Nat.sub_diag in M by lia. injection M as <-. auto.
Qed.
Example C107_ex : exists m, nth_error (fst (make_put None 0 [mkG 1 (mkK DEmpty None) 2 None None None None 0] (PText 5) 3 4)) 1 = Some m /\ g_from m = 3%nat /\ g_to m = 4%nat.
Proof. eexists. split; [reflexivity|split; reflexivity]. Qed.

(** ** C108 *)
(** While the link from [a] to [b] is never down, what [a] sends to [b] arrives in the order
    in which it was put. *)
Theorem C108_first_in_first_out : forall f c0 t0 os s tr a b, good f -> always_up a b c0 os -> run f (init c0 t0) os = (s, tr) ->
  prefix (arrivals a b tr) (puts a b tr) /\ (idle s -> arrivals a b tr = puts a b tr).
Proof.
  intros f c0 t0 os s tr a b G [U C] R. pose proof (wired_run a b f os _ _ G C (wired_init a b f c0 t0 U)) as W. rewrite R in W. cbn in W. destruct W as ((O & _) & _ & _ & [P _] & _). split; [exists (flight a b s); exact P|].
  intros [Q L]. rewrite P. unfold flight. rewrite Q. cbn. destruct O as [O1 O2]. rewrite Q in O1. destruct (t_loop s); [congruence| |discriminate]. rewrite (O2 eq_refl). cbn. rewrite app_nil_r. reflexivity.
Qed.
(** It arrives the sending time after it was put, or after run() began, if that was later. *)
Theorem C108_sending_time : forall f c0 t0 os s tr a b k id id' tp ts t, good f -> always_up a b c0 os -> run f (init c0 t0) os = (s, tr) ->
  In (APut k id a b tp) tr -> In (AStart ts) tr -> In (ADeliver k id' a b t) tr -> t == later tp ts + f_send f.
Proof.
  intros f c0 t0 os s tr a b k id id' tp ts t G [U C] R P S D. pose proof (wired_run a b f os _ _ G C (wired_init a b f c0 t0 U)) as W. rewrite R in W. cbn in W. destruct W as (_ & _ & _ & _ & L).
  destruct (l_del _ _ _ _ _ L k id' t D) as [_ (d & X & E)]. rewrite (X tp ts id a b P S). exact E.
Qed.
(** And it has arrived once that time is over. *)
Theorem C108_arrives : forall f c0 t0 os s tr a b k id tp ts, good f -> always_up a b c0 os -> run f (init c0 t0) os = (s, tr) ->
  In (APut k id a b tp) tr -> In (AStart ts) tr -> later tp ts + f_send f < t_now s -> In k (arrivals a b tr).
Proof.
  intros f c0 t0 os s tr a b k id tp ts G [U C] R P S T. pose proof (wired_run a b f os _ _ G C (wired_init a b f c0 t0 U)) as W. rewrite R in W. cbn in W. destruct W as (_ & [TM _] & _ & [O _] & L). destruct G as [G _].
  assert (I : In k (puts a b tr)) by (unfold puts; apply in_flat_map; exists (APut k id a b tp); split; [exact P|]; rewrite !Nat.eqb_refl; left; reflexivity).
  rewrite O in I. apply in_app_or in I as [I|I]; [exact I|]. exfalso. rewrite Forall_forall in TM. unfold flight in I. apply in_app_or in I as [I|I]; [|apply in_app_or in I as [I|I]; [|apply in_app_or in I as [I|I]]].
  - apply in_tags in I as (e & i & E & X & PB). assert (EV : e_ev e = ESend k i) by (destruct (e_ev e); cbn in X; try discriminate; congruence). destruct (l_send _ _ _ _ _ L e k i E EV PB) as (d & D & DT). destruct (TM e E) as (Z & _). pose proof (D tp ts id a b P S) as Y. lra.
  - apply in_tags in I as (e & i & E & X & PB). assert (EV : nowish (e_ev e) = Some k) by (destruct (e_ev e); cbn in *; try discriminate; congruence). pose proof (l_now _ _ _ _ _ L e k E EV tp ts id a b P S). lra.
  - apply in_tags in I as (e & i & E & X & PB). assert (EV : nowish (e_ev e) = Some k) by (destruct (e_ev e); cbn in *; try discriminate; congruence). pose proof (l_now _ _ _ _ _ L e k E EV tp ts id a b P S). lra.
  - apply in_ins in I as (i & I). pose proof (l_in _ _ _ _ _ L k i I tp ts id a b P S). lra.
Qed.
Definition f2 : cfg := mkF 5 1 2 None.
Definition cut34 : CommsModel.conf := CommsModel.mkC false [] [(3, 4)%nat].
Definition flow : list op := [UMake (PText 5) 1 2; UMake (PText 6) 3 4; UMake (PText 7) 1 2; UPut 2; URun; UStep; UStep; UStep; UTime 1; UConf cut34; UPut 1; UPut 0] ++ repeat UStep 6 ++ [UTime (5 # 2)].
Example C108_ex : let r := run f2 (init open_ 0) flow in
  good f2 /\ always_up 1 2 open_ flow /\ puts 1 2 (snd r) = [0; 2]%nat /\ arrivals 1 2 (snd r) = [0]%nat /\ ~ idle (fst r) /\ In (AStart 0) (snd r) /\ In (APut 0 2 1 2 0) (snd r) /\ In (ADeliver 0 2 1 2 2) (snd r) /\
  later 0 0 + f_send f2 < t_now (fst r).
Proof.
  split; [split; cbn; lra|]. split; [split; [repeat split; cbn; tauto|]|].
  - intros c' I. cbn in I. repeat (destruct I as [I|I]; [try discriminate|]); [|destruct I]. injection I as <-. repeat split; cbn; intuition congruence.
  - vm_compute. repeat split; try discriminate; try (intros [X _]; discriminate X); repeat (try (left; reflexivity); right).
Qed.

(** ** C109 *)
(** Order is lost when a message has to be tried again: the link is down when the first is
    put, up again when the second is put, and the second arrives before the first is tried
    again. *)
Definition cut12 : CommsModel.conf := CommsModel.mkC false [] [(1, 2)%nat].
Definition overtaken : list op := [UMake (PText 5) 1 2; UMake (PText 6) 1 2; URun; UStep; UPut 0; UStep; UStep; UTime (1 # 2); UConf open_; UPut 1] ++ repeat UStep 3.
Theorem C109_always_in_order_refuted : ~ (forall f c0 t0 os s tr a b, good f -> run f (init c0 t0) os = (s, tr) -> idle s -> settled tr = arrivals a b tr -> arrivals a b tr = puts a b tr).
Proof.
  intro H. assert (ID : idle (fst (run f0 (init cut12 0) overtaken))) by (split; vm_compute; [reflexivity|discriminate]).
  assert (SE : settled (snd (run f0 (init cut12 0) overtaken)) = arrivals 1 2 (snd (run f0 (init cut12 0) overtaken))) by (vm_compute; reflexivity).
  specialize (H f0 cut12 0 overtaken _ _ 1%nat 2%nat ltac:(split; cbn; lra) (surjective_pairing _) ID SE). vm_compute in H. discriminate H.
Qed.
(** But no message is lost or doubled by that: C106_one_end; and between those of one pair
    whose link is never down the order is kept whatever happens to the others. *)
Theorem C109_links_up_partial : forall f c0 t0 os s tr a b, good f -> always_up a b c0 os -> run f (init c0 t0) os = (s, tr) -> idle s -> arrivals a b tr = puts a b tr.
Proof. intros f c0 t0 os s tr a b G U R I. apply (C108_first_in_first_out f c0 t0 os s tr a b G U R). exact I. Qed.
Example C109_ex : let os := flow ++ repeat UStep 20 in let r := run f2 (init open_ 0) os in idle (fst r) /\ puts 1 2 (snd r) = [0; 2]%nat /\ puts 3 4 (snd r) = [1]%nat /\ arrivals 3 4 (snd r) = [].
Proof. vm_compute. repeat split; discriminate. Qed.

(** ** C110 *)
(** time_sent is when the message last arrived; time_received is never set. *)
Theorem C110_stamps : forall f c0 t0 os s tr id m, run f (init c0 t0) os = (s, tr) -> nth_error (t_heap s) id = Some m -> g_sent m = last_arrival id tr /\ g_received m = None.
Proof.
  intros f c0 t0 os s tr id m R M. assert (S0 : stamped (init c0 t0) []) by (split; [intros i n X; destruct i; discriminate|reflexivity]).
  pose proof (stamped_run f os _ _ S0) as S. rewrite R in S. destruct S as [S _]. apply S. exact M.
Qed.
Example C110_ex : let r := run f2 (init open_ 0) flow in exists m, nth_error (t_heap (fst r)) 2 = Some m /\ g_sent m = Some 2 /\ nth_error (t_heap (fst r)) 1 <> None /\ last_arrival 1 (snd r) = None.
Proof. eexists. vm_compute. repeat split. discriminate. Qed.
(** So time_sent is not when it was sent: put at 0 and on its way from then on, sent at 2. *)
Theorem C110_time_sent_refuted : ~ (forall f c0 t0 os s tr id m t k a b tp, good f -> always_up a b c0 os -> run f (init c0 t0) os = (s, tr) -> In (AStart t0) tr ->
  nth_error (t_heap s) id = Some m -> g_sent m = Some t -> In (APut k id a b tp) tr -> t == tp).
Proof.
  intro H. destruct C108_ex as (G & U & _ & _ & _ & S & P & _). destruct C110_ex as (m & M & T & _). specialize (H f2 open_ 0 flow _ _ 2%nat m 2 0%nat 1%nat 2%nat 0 G U (surjective_pairing _) S M T P). lra.
Qed.
Theorem C110_time_received_refuted : ~ (forall f c0 t0 os s tr a k id c t m, run f (init c0 t0) os = (s, tr) -> In (AHeard a (IMsg k id) c t) tr -> nth_error (t_heap s) id = Some m -> exists t', g_received m = Some t').
Proof.
  intro H. destruct C106_ex as (_ & _ & _ & _ & _ & _ & X). assert (M : nth_error (t_heap (fst (run f0 (init open_ 0) two))) 1 = Some (mkG 1 (mkK (DUser 6) None) 2 None (Some 0) None None 0)) by (vm_compute; reflexivity).
  destruct (H f0 open_ 0 two _ _ _ _ _ _ _ _ (surjective_pairing _) X M) as (t' & Y). discriminate Y.
Qed.
(** A message that is sent again is the same object: its time_sent changes in the hands of
    who already has it. *)
Definition resend : list op := [UMake (PText 5) 1 2; URun; UPut 0] ++ repeat UStep 4 ++ [UTime 3; UMake (PMsg 0) 1 2; UPut 0] ++ repeat UStep 4.
Theorem C110_sent_once_refuted : ~ (forall f c0 t0 os os' s s' tr tr' id m m', good f -> run f (init c0 t0) os = (s, tr) -> run f s os' = (s', tr') ->
  nth_error (t_heap s) id = Some m -> nth_error (t_heap s') id = Some m' -> g_sent m <> None -> g_sent m' = g_sent m).
Proof.
  intro H. pose (m := fun t => mkG 1 (mkK DEmpty (Some 5%nat)) 2 None (Some t) None None 0). set (r := run f0 (init open_ 0) (firstn 7 resend)) in *.
  assert (M : nth_error (t_heap (fst r)) 0 = Some (m 0)) by (vm_compute; reflexivity). assert (M' : nth_error (t_heap (fst (run f0 (fst r) (skipn 7 resend)))) 0 = Some (m 3)) by (vm_compute; reflexivity).
  specialize (H f0 open_ 0 (firstn 7 resend) (skipn 7 resend) _ _ _ _ 0%nat _ _ ltac:(split; cbn; lra) (surjective_pairing _) (surjective_pairing _) M M' ltac:(discriminate)). discriminate H.
Qed.
(** Two messages with the same content between the same actors are equal, but not hashed
    alike: the hash is that of the uid, here the place in the heap. *)
Theorem C110_equal_messages_refuted : ~ (forall f c0 t0 os s tr id id' m m', run f (init c0 t0) os = (s, tr) -> nth_error (t_heap s) id = Some m -> nth_error (t_heap s) id' = Some m' -> msg_eqb m m' = true -> id = id').
Proof.
  intro H. pose (m := fun t => mkG 1 (mkK DEmpty (Some 5%nat)) 2 None None None None t). set (os := [UMake (PText 5) 1 2; UTime 1; UMake (PText 5) 1 2]).
  assert (M : t_heap (fst (run f0 (init open_ 0) os)) = [m 0; m 1]) by (vm_compute; reflexivity).
  specialize (H f0 open_ 0 os _ _ 0%nat 1%nat (m 0) (m 1) (surjective_pairing _)). rewrite M in H. specialize (H eq_refl eq_refl eq_refl). discriminate H.
Qed.
(** What == of messages says: everything but when they were made, and which they are. *)
Theorem C110_equality : forall m m', msg_eqb m m' = true <->
  g_from m = g_from m' /\ g_to m = g_to m' /\ g_content m = g_content m' /\ g_header m = g_header m' /\ g_mode m = g_mode m' /\
  same_time (g_sent m) (g_sent m') /\ same_time (g_received m) (g_received m').
Proof. exact msg_eqb_spec. Qed.
Example C110_equality_ex : let m := mkG 1 (mkK (DUser 6) (Some 4%nat)) 2 (Some 3%nat) (Some (1 # 2)) None (Some 8%nat) in
  msg_eqb (m 0) (mkG 1 (mkK (DUser 6) (Some 4%nat)) 2 (Some 3%nat) (Some (2 # 4)) None (Some 8%nat) 5) = true /\
  msg_eqb (m 0) (mkG 1 (mkK (DMessage 6) (Some 4%nat)) 2 (Some 3%nat) (Some (1 # 2)) None (Some 8%nat) 0) = false.
Proof. split; reflexivity. Qed.
(** Text put into a store directly does not reach the callback as text sent through the
    manager does. *)
Theorem C110_text_refuted : ~ (forall heap x k mode now source destination, let '(h, id) := make_put mode now heap (PText x) source destination in clean h (IMsg k id) = clean h (IRaw x)).
Proof. intro H. specialize (H [] 5%nat 0%nat None 0 1%nat 2%nat). discriminate H. Qed.

Print Assumptions C106_made.
Print Assumptions C106_heard.
Print Assumptions C106_in_order.
Print Assumptions C106_one_end.
Print Assumptions C107_redirect_refuted.
Print Assumptions C107_goes_back_refuted.
Print Assumptions C107_others_partial.
Print Assumptions C108_first_in_first_out.
Print Assumptions C108_sending_time.
Print Assumptions C108_arrives.
Print Assumptions C109_always_in_order_refuted.
Print Assumptions C109_links_up_partial.
Print Assumptions C110_stamps.
Print Assumptions C110_time_sent_refuted.
Print Assumptions C110_time_received_refuted.
Print Assumptions C110_sent_once_refuted.
Print Assumptions C110_equal_messages_refuted.
Print Assumptions C110_text_refuted.

Print Assumptions C110_equality.
