(** Property theorems for the drivers of CAN controllers (C119-C125). *)
From Verif Require Import Base CoreModel FilterModel CanIdModel CanTxModel CanQueueModel CanQueueSpec CanQueueProofs CanFlushProofs CanSpec FilterProofs CanIdProps BxModel BxSpec BxProofs BxQueueProofs BxRxProofs.

Ltac Zify.zify_post_hook ::= Z.div_mod_to_equations.
Import Permutation.

(** * C119: transmitting with the bxCAN driver *)

(** For every history of calls, and of what the hardware does in between: no call panics or fails; every frame that was taken has been sent, or was aborted after
    its deadline, or has been given back, or still is in a mailbox; after a call to transmit no frame in a mailbox is past its deadline.  A further frame is refused
    exactly if a frame in a mailbox, not past its deadline, has the same or a higher priority.  A frame is given back only if all mailboxes were full;
    it has the lowest priority of those in them, and a lower one than the frame taken.  Missing: the frame given back without any change (see below). *)
Theorem C119_transmit_partial : forall banks ops, (1 <= banks)%nat -> Forall op_ok ops ->
  exists x outs out gone back pend, bx_run ops (bx_new banks) = Ok (x, outs) /\
    Permutation (flat_map accepted outs) (out ++ map snd gone ++ back ++ pend) /\
    sent (bx_can x) = map on_wire out /\
    aborted (bx_can x) = map (fun p => (fst p, on_wire (snd p))) gone /\ Forall (fun p => late (f_ts (snd p)) (fst p)) gone /\
    flat_map displaced outs = map plain back /\
    pending (bx_can x) = map on_wire pend /\
    (forall earlier now f, ops = earlier ++ [OpTransmit now f] -> Forall (fun g => ~ late (f_ts g) now) pend) /\
    forall now f, now < 2 ^ 32 -> fits f ->
      exists x' r, bx_transmit now f x = Ok (x', r) /\ r <> TxError /\
        (r = TxWouldBlock <-> t_lt (f_ts f) now = false /\ exists p, In p pend /\ ~ late (f_ts p) now /\ f_id p <= f_id f) /\
        (forall g, r = TxOk (Some g) -> length pend = 3%nat /\ (exists p, In p pend /\ g = plain p) /\ f_id f < f_id g /\ forall p, In p pend -> f_id p <= f_id g).
Proof.
  intros banks ops Hb Hops. destruct (run_account ops banks Hb Hops) as (x & outs & os & out & gone & back & E & _ & A & P & Eb & L).
  exists x, outs, out, gone, back, (occupied os). split; [exact E|]. split; [exact P|]. destruct A as [A1 A2 A3 A4]. split; [exact A2|]. split; [exact A3|]. split; [exact A4|].
  split; [symmetry; exact Eb|]. split; [apply pending_rel, A1|]. split; [exact L|]. intros now f Hn Hf.
  destruct (bx_transmit_rel now f x os A1 Hf) as (x' & r & os' & E' & _ & _ & _ & K). exists x', r. split; [exact E'|].
  assert (Hin : forall p, In p (occupied (clean_all now os)) <-> In p (occupied os) /\ ~ late (f_ts p) now).
  { intro p. rewrite clean_all_occupied, filter_In. split; intros (H1 & H2); split; try assumption; unfold expired_now in *.
    - intro X. apply t_gt_late in X; [|exact Hn|apply (rel_fits _ _ A1 p H1)]. rewrite X in H2. discriminate.
    - destruct (t_gt now (f_ts p)) eqn:X; [|reflexivity]. destruct H2. apply t_gt_late; [exact Hn|apply (rel_fits _ _ A1 p H1)|exact X]. }
  destruct (t_lt (f_ts f) now) eqn:Et.
  { destruct K as (-> & _). split; [discriminate|]. split; [|discriminate]. split; [discriminate|]. intros (X & _). discriminate X. }
  destruct (outranks_all f (clean_all now os)) eqn:Eo; unfold outranks_all in Eo.
  - destruct K as (m & s & -> & Em & _ & Hs & _). rewrite forallb_forall in Eo. split; [discriminate|]. split.
    + split; [discriminate|]. intros (_ & p & Hp & Hl & Hid). specialize (Eo p (proj2 (Hin p) (conj Hp Hl))). apply N.ltb_lt in Eo. lia.
    + intros g X. destruct s as [g'|]; [|discriminate X]. cbn [option_map] in X. assert (Eg : g = plain g') by congruence. destruct (Hs ltac:(discriminate)) as (Hfull & Hmax).
      assert (Hg' : In g' (occupied (clean_all now os))) by (apply in_occupied; exists m; exact Em).
      assert (Efull : occupied (clean_all now os) = occupied os).
      { pose proof (rel_length _ _ A1) as E3. destruct (three os E3) as (a & b & c & ->). clear - Hfull. pose proof (Hfull 0%nat) as F0. pose proof (Hfull 1%nat) as F1. pose proof (Hfull 2%nat) as F2.
        unfold clean_all, occupied in *. cbn [map nth_error flat_map] in *. destruct a as [a|], b as [b|], c as [c|]; cbn in *; try congruence;
          repeat match goal with |- context [if ?q then _ else _] => destruct q; cbn in *; try congruence end. }
      split; [|split; [exists g'; split; [rewrite <- Efull; exact Hg'|exact Eg]|split] ].
      * pose proof (rel_length _ _ A1) as E3. rewrite <- Efull. destruct (three os E3) as (a & b & c & ->). pose proof (Hfull 0%nat) as F0. pose proof (Hfull 1%nat) as F1. pose proof (Hfull 2%nat) as F2. clear - F0 F1 F2.
        unfold clean_all, occupied in *. cbn [map nth_error flat_map] in *. destruct a as [a|], b as [b|], c as [c|]; cbn in *; try congruence;
          repeat match goal with |- context [if ?q then _ else _] => destruct q; cbn in *; try congruence end.
      * rewrite Eg. cbn [plain f_id]. apply N.ltb_lt, Eo, Hg'.
      * intros p Hp. rewrite Eg. cbn [plain f_id]. apply (Hmax g' p eq_refl). rewrite Efull. exact Hp.
  - destruct K as (-> & _). split; [discriminate|]. split; [|discriminate]. split; [|reflexivity]. intros _. split; [reflexivity|].
    assert (X : exists p, In p (occupied (clean_all now os)) /\ (f_id f <? f_id p) = false).
    { clear - Eo. induction (occupied (clean_all now os)) as [|p ps IH]; [discriminate|]. cbn [forallb] in Eo. destruct (f_id f <? f_id p) eqn:Ep; [|exists p; split; [left; reflexivity|exact Ep] ].
      cbn [andb] in Eo. destruct (IH Eo) as (p' & Hp & E). exists p'. split; [right; exact Hp|exact E]. }
    destruct X as (p & Hp & Ep). apply Hin in Hp. destruct Hp as (Hp & Hl). apply N.ltb_ge in Ep. exists p. split; [exact Hp|]. split; assumption.
Qed.
Print Assumptions C119_transmit_partial.

Definition tx (now deadline id : N) (loop : bool) (data : list N) : bx_op := OpTransmit now (Frame deadline id loop data).
Example C119_witness :
  let ops := [tx 0 100 50 false [1]; tx 1 90 40 false [2]; tx 2 80 30 true [3]; tx 3 70 20 false [4]; OpSend 1; tx 75 200 10 false [5]; tx 76 201 10 false [6]; tx 77 76 1 false [7]] in
  Forall op_ok ops /\
  match bx_run ops (bx_new 14) with
  | Ok (x, outs) => map snd outs = [OutTx (TxOk None); OutTx (TxOk None); OutTx (TxOk None); OutTx (TxOk (Some (Frame 100 50 false [1]))); OutNothing; OutTx (TxOk None); OutTx TxWouldBlock; OutTx (TxOk None)] /\
      sent (bx_can x) = [BxFrame true 40 (Some [2])] /\ aborted (bx_can x) = [(75, BxFrame true 20 (Some [4]))] /\ length (pending (bx_can x)) = 2%nat
  | Panic => False
  end.
Proof.
  cbv zeta. split; [repeat (apply Forall_cons; [first [exact I|unfold op_ok, fits, tx; cbn [f_id f_data f_ts length]; lia]|]); apply Forall_nil|].
  vm_compute. split; [reflexivity|]. split; [reflexivity|]. split; reflexivity.
Qed.

(** The frame given back does not ask for loopback although the frame taken did. *)
Theorem C119_given_back_refuted : exists ops x outs f g, Forall op_ok ops /\ bx_run ops (bx_new 14) = Ok (x, outs) /\ flat_map displaced outs = [g] /\ In f (flat_map accepted outs) /\
  g = plain f /\ g <> f.
Proof.
  exists [tx 0 100 50 true [1]; tx 1 90 40 false [2]; tx 2 80 30 false [3]; tx 3 70 20 false [4] ]. eexists _, _, (Frame 100 50 true [1]), (Frame 100 50 false [1]).
  split; [repeat (apply Forall_cons; [unfold op_ok, fits, tx; cbn [f_id f_data f_ts length]; lia|]); apply Forall_nil|].
  split; [vm_compute; reflexivity|]. split; [vm_compute; reflexivity|]. split; [vm_compute; left; reflexivity|]. split; [reflexivity|discriminate].
Qed.
Print Assumptions C119_given_back_refuted.

(** * C120: loopback *)

Lemma run_looped ops : forall x x' outs, bx_run ops x = Ok (x', outs) -> Forall (fun f => f_loop f = true) (bx_loopback x) -> Forall (fun f => f_loop f = true) (bx_loopback x').
Proof.
  induction ops as [|o ops IH]; intros x x' outs; cbn [bx_run]; [intros E H; injection E as <- <-; exact H|].
  destruct (bx_step o x) as [ [x1 out]|] eqn:Es; [|discriminate]. destruct (bx_run ops x1) as [ [x2 l]|] eqn:Er; [|discriminate]. intros E H. injection E as <- <-.
  destruct (step_rx o x x1 out Es H) as (_ & _ & _ & H1 & _). exact (IH _ _ _ Er H1).
Qed.

(** In every history the copies received are copies of frames that were taken and that ask for loopback, with the time at which they were taken, in this order and each once at most.
    If never more than two wait to be received, no copy is lost.  Missing: more than two, and that frames have been sent (see below). *)
Theorem C120_loopback_partial : forall banks ops x outs, bx_run ops (bx_new banks) = Ok (x, outs) ->
  subsequence (looped (flat_map received outs) ++ bx_loopback x) (flat_map copies outs) /\
  ((forall a b, outs = a ++ b -> (length (flat_map copies a) <= length (looped (flat_map received a)) + 2)%nat) ->
   looped (flat_map received outs) ++ bx_loopback x = flat_map copies outs).
Proof. intros banks ops x outs E. destruct (run_rx ops _ _ _ E ltac:(constructor)) as (_ & K2 & _ & K4 & _). split; [exact K2|exact K4]. Qed.
Print Assumptions C120_loopback_partial.

Example C120_witness :
  let ops := [tx 0 100 50 true [1]; tx 1 90 40 true [2]; OpArrive (BxFrame true 7 (Some [9])); OpReceive 5; OpReceive 6; tx 7 80 30 true [3]; OpReceive 8; OpReceive 9; OpReceive 10] in
  match bx_run ops (bx_new 14) with
  | Ok (x, outs) => flat_map received outs = [Frame 0 50 true [1]; Frame 1 40 true [2]; Frame 7 30 true [3] ] /\ flat_map copies outs = [Frame 0 50 true [1]; Frame 1 40 true [2]; Frame 7 30 true [3] ]
  | Panic => False
  end.
Proof. vm_compute. split; reflexivity. Qed.

(** The copy of a third frame is lost. *)
Theorem C120_lost_refuted : exists ops x outs, Forall op_ok ops /\ bx_run ops (bx_new 14) = Ok (x, outs) /\ length (flat_map copies outs) = 3%nat /\
  length (flat_map received outs) = 2%nat /\ bx_loopback x = [].
Proof.
  exists [tx 0 100 50 true [1]; tx 0 100 40 true [2]; tx 0 100 30 true [3]; OpReceive 1; OpReceive 1; OpReceive 1]. eexists _, _.
  split; [repeat (apply Forall_cons; [first [exact I|unfold op_ok, fits, tx; cbn [f_id f_data f_ts length]; lia]|]); apply Forall_nil|].
  split; [vm_compute; reflexivity|]. split; [vm_compute; reflexivity|]. split; vm_compute; reflexivity.
Qed.
Print Assumptions C120_lost_refuted.
(** The copy of a frame is received although the frame is never sent. *)
Theorem C120_unsent_refuted : exists ops x outs f, Forall op_ok ops /\ bx_run ops (bx_new 14) = Ok (x, outs) /\ flat_map received outs = [f] /\ f_loop f = true /\
  sent (bx_can x) = [] /\ map snd (aborted (bx_can x)) = [on_wire f].
Proof.
  exists [tx 0 100 50 true [1]; OpReceive 1; tx 101 200 30 false [2] ]. eexists _, _, (Frame 0 50 true [1]).
  split; [repeat (apply Forall_cons; [first [exact I|unfold op_ok, fits, tx; cbn [f_id f_data f_ts length]; lia]|]); apply Forall_nil|].
  split; [vm_compute; reflexivity|]. split; [vm_compute; reflexivity|]. split; [reflexivity|]. split; vm_compute; reflexivity.
Qed.
Print Assumptions C120_unsent_refuted.

(** * C121: receiving *)

(** In every history the frames received from the bus, followed by those that still wait, are exactly the extended data frames that have passed the filters, in the order of their arrival,
    with the time of the call as their time stamp; and overruns are reported as often as they happen. *)
Theorem C121_received : forall banks ops x outs, bx_run ops (bx_new banks) = Ok (x, outs) ->
  map on_wire (from_bus (flat_map received outs)) ++ filter deliverable (waiting (bx_can x)) = filter deliverable (passed ops (bx_new banks)) /\
  Forall (fun p => match fst p with OpReceive now => Forall (fun f => f_ts f = now) (from_bus (received p)) | _ => True end) outs /\
  (length (filter overran outs) + overruns (bx_can x) = overruns_in ops)%nat.
Proof. intros banks ops x outs E. destruct (run_rx ops _ _ _ E ltac:(constructor)) as (K1 & _ & K3 & _ & K5). split; [exact K1|]. split; [exact K5|exact K3]. Qed.
Print Assumptions C121_received.

(** After every history: nothing is received exactly if no frame to pass on, no overrun and no copy waits; a copy is received only if nothing else waits. *)
Theorem C121_would_block : forall banks ops x outs now x' r, bx_run ops (bx_new banks) = Ok (x, outs) -> bx_receive now x = (x', r) ->
  (r = RxWouldBlock <-> filter deliverable (waiting (bx_can x)) = [] /\ overruns (bx_can x) = O /\ bx_loopback x = []) /\
  (forall f, r = RxFrame f -> f_loop f = true -> filter deliverable (waiting (bx_can x)) = [] /\ overruns (bx_can x) = O).
Proof.
  intros banks ops x outs now x' r E Er. pose proof (bx_receive_spec now x (run_looped ops _ _ _ E ltac:(constructor))) as K. rewrite Er in K. destruct K as (_ & _ & _ & _ & K5 & K6 & _).
  split; [exact K6|]. intros f -> Hf. apply K5. cbn [received looped filter]. rewrite Hf. discriminate.
Qed.
Print Assumptions C121_would_block.

Example C121_witness :
  let ops := [OpAcceptAll; OpArrive (BxFrame false 3 (Some [1])); OpArrive (BxFrame true 9 None); OpArrive (BxFrame true 7 (Some [2])); OpOverrun; OpArrive (BxFrame true 5 (Some []));
              OpReceive 10; OpReceive 11; OpReceive 12; OpReceive 13] in
  match bx_run ops (bx_new 14) with
  | Ok (_, outs) => map snd (skipn 6 outs) = [OutRx (RxFrame (Frame 10 7 false [2])); OutRx RxOverrun; OutRx (RxFrame (Frame 12 5 false [])); OutRx RxWouldBlock]
  | Panic => False
  end.
Proof. vm_compute. reflexivity. Qed.

(** * C122: filters of the bxCAN driver *)

(** Applying filters never panics, and afterwards the hardware passes every frame that a subscription needs, even if memory has run out.
    With enough memory and no more subscriptions than filter banks, the extended frames that it passes are exactly these. *)
Theorem C122_filters : forall banks ops x outs local ps alloc, (1 <= banks)%nat -> Forall op_ok ops -> bx_run ops (bx_new banks) = Ok (x, outs) -> Forall port_ok ps -> node_ok local ->
  exists x', bx_filters local ps alloc x = Ok x' /\ d_mailboxes (bx_can x') = d_mailboxes (bx_can x) /\ d_fifo (bx_can x') = d_fifo (bx_can x) /\ bx_loopback x' = bx_loopback x /\
    (forall p b, In p ps -> b_extended b = true -> b_id b < 2 ^ 29 -> wanted local p (b_id b) -> existsb (bank_accepts b) (d_banks (bx_can x')) = true) /\
    ((forall n, alloc n = true) -> (length ps <= banks)%nat ->
     forall b, b_extended b = true -> b_id b < 2 ^ 29 -> (existsb (bank_accepts b) (d_banks (bx_can x')) = true <-> exists p, In p ps /\ wanted local p (b_id b))).
Proof.
  intros banks ops x outs local ps alloc Hb Hops E Hps Hn. destruct (run_account ops banks Hb Hops) as (x0 & outs0 & _ & _ & _ & _ & E0 & Hl & _). rewrite E in E0. assert (x0 = x) as -> by congruence. clear E0.
  unfold has_banks in Hl. unfold bx_filters, bx_accept_all. destruct (optimize_filters_total local ps (length (d_banks (bx_can x))) alloc ltac:(lia)) as [(fs & Eo & L)|Eo].
  - rewrite Eo. destruct (enable_banks_ok fs 0 (clear_banks (d_banks (bx_can x))) ltac:(rewrite clear_length; lia)) as (bs & Eb). rewrite Eb. eexists. split; [reflexivity|]. cbn [set_banks bx_can d_mailboxes d_fifo d_banks bx_loopback].
    split; [reflexivity|]. split; [reflexivity|]. split; [reflexivity|]. split.
    + intros p b Hp He Hid Hw. rewrite (enabled_accepts fs _ _ b Eb He). destruct (C29_subscriptions_not_blocked local ps (length (d_banks (bx_can x))) alloc fs Hps Hn ltac:(lia) Eo) as (_ & K).
      destruct (K p (b_id b) Hp Hid Hw) as (f & Hf & Ha). apply existsb_exists. exists f. split; assumption.
    + intros _ Hlen b He Hid. rewrite (enabled_accepts fs _ _ b Eb He). unfold optimize_filters in Eo. destruct (make_filters ps local alloc 0) as [l|] eqn:Em; [|discriminate].
      destruct (make_filters_exact local ps alloc Hps Hn 0 l Em) as (L1 & L2). destruct (optimize_spec l (length (d_banks (bx_can x))) ltac:(lia) (make_filters_valid _ _ _ _ _ Em)) as (o & E1 & _ & _ & _ & E2).
      rewrite E1 in Eo. rewrite (E2 ltac:(lia)) in Eo. assert (fs = l) as -> by congruence. apply L2, Hid.
  - rewrite Eo. unfold enable_bank, store. rewrite clear_length. replace (0 <? length (d_banks (bx_can x)))%nat with true by (symmetry; apply Nat.ltb_lt; lia).
    eexists. split; [reflexivity|]. cbn [set_banks bx_can d_mailboxes d_fifo d_banks bx_loopback]. split; [reflexivity|]. split; [reflexivity|]. split; [reflexivity|]. split.
    + intros p b _ _ _ _. apply existsb_exists. exists (Some BankAll). split; [|reflexivity]. clear - Hl Hb. revert Hl. destruct (d_banks (bx_can x)) as [|k ks]; cbn [length]; intro Hl; [lia|]. left. reflexivity.
    + intro Ha. exfalso. clear - Eo Ha. unfold optimize_filters in Eo.
      assert (X : forall n, make_filters ps local alloc n <> None).
      { clear Eo. induction ps as [|p ps' IH]; intro n; cbn [make_filters]; [discriminate|]. destruct (make_filter p local); [|apply IH]. rewrite Ha. specialize (IH (S n)). destruct (make_filters ps' local alloc (S n)); [discriminate|exact IH]. }
      specialize (X O). destruct (make_filters ps local alloc 0); [|congruence]. destruct (optimize l _); discriminate.
Qed.
Print Assumptions C122_filters.

Example C122_witness : Forall port_ok [PMsg 4919; PReq 430; PMsg 7] /\ node_ok (Some 42) /\
  match bx_filters (Some 42) [PMsg 4919; PReq 430; PMsg 7] (fun _ => true) (bx_new 2) with
  | Ok x => existsb (bank_accepts (BxFrame true 0x1073373b (Some []))) (d_banks (bx_can x)) = true /\ existsb (bank_accepts (BxFrame true 0x000002aa (Some []))) (d_banks (bx_can x)) = false
  | Panic => False
  end.
Proof.
  split; [repeat constructor; vm_compute; discriminate|]. split; [intros n E; injection E as <-; vm_compute; discriminate|]. vm_compute. split; reflexivity.
Qed.

(** * C123, C124: a queue with the bxCAN driver *)

Lemma plain_wire l : map on_wire (map plain l) = map on_wire l.
Proof. rewrite map_map. reflexivity. Qed.
Lemma wire_with_id id l : filter (fun b => b_id b =? id) (map on_wire l) = map on_wire (with_id id l).
Proof. unfold with_id. induction l as [|f l IH]; [reflexivity|]. cbn [map filter on_wire b_id]. destruct (f_id f =? id); cbn [map]; rewrite IH; reflexivity. Qed.

(** Whatever frames are given to the queue, whenever it is flushed and whatever the clock and the hardware do: the driver has not panicked; each frame given to the queue has been sent, or was dropped
    when a reading of the clock was past its deadline, or is in a mailbox, or is in the queue; nothing else is; and the frames with one identifier
    are sent in the order in which they were given to the queue. *)
Theorem C123_queue_and_driver : forall cap banks script pushed q w, (forall k, fst (script k) < 2 ^ 32) -> system cap banks script pushed q w ->
  exists x k out lost pend, w = (Ok x, k) /\
    Permutation (map plain pushed) (map plain (out ++ map snd lost ++ pend ++ drain (S cap) q)) /\
    sent (bx_can x) = map on_wire out /\ pending (bx_can x) = map on_wire pend /\
    Forall (fun p => (exists k, fst p = fst (script k)) /\ t_lt (f_ts (snd p)) (fst p) = true) lost /\
    forall id, subsequence (filter (fun b => b_id b =? id) (sent (bx_can x) ++ pending (bx_can x) ++ map on_wire (drain (S cap) q))) (map on_wire (with_id id pushed)).
Proof.
  intros cap banks script pushed q w Hs H. destruct (system_inv cap banks script pushed q w Hs H) as (l & Hq & x & k & os & out & lost & gone & -> & A & W). rewrite (holds_drain _ _ _ Hq).
  exists x, k, out, lost, (occupied os). split; [reflexivity|]. destruct W as [W1 W2 W3 W4 W5]. destruct A as [A1 A2 A3 A4]. split; [exact W1|]. split; [exact A2|]. split; [apply pending_rel, A1|]. split; [exact W2|].
  intro id. rewrite A2, (pending_rel _ _ A1), <- !map_app, wire_with_id, <- (plain_wire (with_id id pushed)), <- plain_wire. apply sub_map, W3.
Qed.
Print Assumptions C123_queue_and_driver.

(** Flushing always ends, after a number of rounds that depends on the capacity only, and never fails.  If it ends with success, the queue is empty;
    if it would block, frames are left in it, and a frame in a mailbox has the same or a higher priority than all of them. *)
Theorem C124_flush_ends : forall cap banks script pushed q w fuel, (forall k, fst (script k) < 2 ^ 32) -> system cap banks script pushed q w -> (2 * (cap + 3) + 2 <= fuel)%nat ->
  exists q' w' r, bx_flush script fuel q w = Ok (Some (q', w', r)) /\
    (r = FlushOk /\ drain (S cap) q' = [] \/
     r = FlushWouldBlock /\ drain (S cap) q' <> [] /\ exists x k p, w' = (Ok x, k) /\ In p (pending (bx_can x)) /\ Forall (fun g => b_id p <= f_id g) (drain (S cap) q')).
Proof.
  intros cap banks script pushed q w fuel Hs H Hf. destruct (system_inv cap banks script pushed q w Hs H) as (l & Hq & Hi). pose proof (bx_flush_inv script pushed Hs cap fuel q l w Hq Hi) as K.
  destruct (bx_flush script fuel q w) as [ [ [ [q' w'] r]|]|]; [|lia|contradiction]. exists q', w', r. split; [reflexivity|]. destruct K as (K1 & l' & H' & _ & K2 & K3). rewrite (holds_drain _ _ _ H').
  destruct r; [left; split; [reflexivity|apply K2; reflexivity]|right; split; [reflexivity|apply K3; reflexivity]|congruence].
Qed.
Print Assumptions C124_flush_ends.

(** Frames of three priorities; mailbox 0 is sent before the third reading of the clock *)
Definition a_script (k : nat) : N * list nat := (w32 (N.of_nat k), if (k =? 2)%nat then [0%nat] else []).
Example C123_witness : exists q w x k, system 8 14 a_script [Frame 100 50 false [1]; Frame 100 40 true [2]; Frame 100 40 false [3]; Frame 100 30 false [4]; Frame 0 45 false [5] ] q w /\ w = (Ok x, k) /\
  map b_id (sent (bx_can x)) = [30] /\ map b_id (pending (bx_can x)) = [40] /\ map f_id (drain 9 q) = [40; 45; 50] /\ (forall k, fst (a_script k) < 2 ^ 32).
Proof.
  assert (P : forall pushed q w f q', system 8 14 a_script pushed q w -> fits f -> aq_push q f = Ok (q', true) -> system 8 14 a_script (pushed ++ [f]) q' w) by (intros; eapply system_push; eassumption).
  pose proof (system_new 8 14 a_script) as H.
  eapply P with (f := Frame 100 50 false [1]) in H; [|unfold fits; cbn [f_id f_data f_ts length]; lia|vm_compute; reflexivity].
  eapply P with (f := Frame 100 40 true [2]) in H; [|unfold fits; cbn [f_id f_data f_ts length]; lia|vm_compute; reflexivity].
  eapply P with (f := Frame 100 40 false [3]) in H; [|unfold fits; cbn [f_id f_data f_ts length]; lia|vm_compute; reflexivity].
  eapply P with (f := Frame 100 30 false [4]) in H; [|unfold fits; cbn [f_id f_data f_ts length]; lia|vm_compute; reflexivity].
  eapply P with (f := Frame 0 45 false [5]) in H; [|unfold fits; cbn [f_id f_data f_ts length]; lia|vm_compute; reflexivity].
  eapply system_flush with (fuel := 40%nat) in H; [|vm_compute; reflexivity]. eexists _, _, _, _. split; [exact H|]. split; [reflexivity|].
  split; [vm_compute; reflexivity|]. split; [vm_compute; reflexivity|]. split; [vm_compute; reflexivity|]. intro j. unfold a_script, w32. cbn [fst]. apply N.mod_lt. discriminate.
Qed.
(** Here the frame given back goes back into the queue: three low priorities are in the mailboxes when a higher one comes *)
Definition low_first : list bx_op := [tx 0 100 50 false [1]; tx 0 100 40 false [2]; tx 0 100 30 false [3] ].
Example C124_witness : exists q' x' k', match bx_run low_first (bx_new 14), aq_push (aq_new 8) (Frame 100 20 false [4]) with
  | Ok (x, _), Ok (q, true) => bx_flush (fun _ => (1, [])) 24 q (Ok x, O) = Ok (Some (q', (Ok x', k'), FlushWouldBlock)) | _, _ => False end /\
  map f_id (drain 9 q') = [50] /\ map b_id (pending (bx_can x')) = [20; 40; 30].
Proof. eexists _, _, _. split; [vm_compute; reflexivity|]. split; vm_compute; reflexivity. Qed.

(** * C125: the Linux driver *)

(** Transmitting a frame that fits never panics; after the deadline nothing is written; before it, what is written is the frame itself, and it is written exactly if the result is success.  No frame is ever given back. *)
Theorem C125_transmit : forall limit now f write, f_id f < 2 ^ 29 -> (length (f_data f) <= limit)%nat ->
  exists written r, linux_transmit limit now f write = Ok (written, r) /\ (forall g, r <> TxOk (Some g)) /\ (forall b, written = Some b -> b = on_wire f /\ write b = Written) /\
    (t_lt (f_ts f) now = true -> written = None /\ r = TxOk None) /\ (t_lt (f_ts f) now = false -> (written = Some (on_wire f) <-> r = TxOk None)).
Proof.
  intros limit now f write Hid Hlen. unfold linux_transmit. destruct (t_lt (f_ts f) now).
  - exists None, (TxOk None). split; [reflexivity|]. split; [discriminate|]. split; [discriminate|]. split; [split; reflexivity|discriminate].
  - apply N.ltb_lt in Hid. apply Nat.leb_le in Hlen. rewrite Hid, Hlen. cbn [andb]. change (BxFrame true (f_id f) (Some (f_data f))) with (on_wire f). destruct (write (on_wire f)) eqn:Ew; eexists _, _; (split; [reflexivity|]); (split; [discriminate|]).
    + split; [intros b E; injection E as <-; split; [reflexivity|exact Ew]|]. split; [discriminate|]. intros _. split; reflexivity.
    + split; [discriminate|]. split; [discriminate|]. intros _. split; discriminate.
    + split; [discriminate|]. split; [discriminate|]. intros _. split; discriminate.
Qed.
Print Assumptions C125_transmit.

(** Frames that the driver leaves out: those with standard identifiers, and those that are too long *)
Definition left_out (capacity : nat) (e : socket_in) : Prop :=
  match e with SocketFrame b => b_extended b = false \/ (capacity < length (match b_data b with Some data => data | None => [] end))%nat | _ => False end.
(** What the first other event makes of a call *)
Definition answers (now : N) (e : socket_in) (r : linux_rx) : Prop :=
  match e, r with
  | SocketFrame b, LinuxFrame f => on_wire f = b /\ f_ts f = now /\ f_loop f = false
  | SocketWouldBlock, LinuxWouldBlock | SocketError, LinuxError => True
  | _, _ => False
  end.
(** Receiving answers with the first event that is not left out, and consumes the events up to it.  Missing: remote frames (see below). *)
Theorem C125_receive_partial : forall capacity now skipped e rest, Forall (left_out capacity) skipped -> ~ left_out capacity e ->
  (forall b, e = SocketFrame b -> b_id b < 2 ^ 29 /\ b_data b <> None) ->
  exists r, linux_receive capacity now (skipped ++ e :: rest) = Some (rest, Ok r) /\ answers now e r.
Proof.
  intros capacity now skipped e rest Hs He Hb. induction Hs as [|s skipped Hs _ IH]; cbn [app linux_receive].
  - destruct e as [b| |]; [|exists LinuxWouldBlock; split; [reflexivity|exact I]|exists LinuxError; split; [reflexivity|exact I] ]. cbn [left_out] in He. destruct (Hb b eq_refl) as (Hid & Hd). destruct b as [ext id [data|]]; [|destruct Hd; reflexivity]. cbn [b_extended b_data b_id] in *.
    destruct (Nat.leb_spec (length data) capacity) as [Hl|Hl]; [|destruct He; right; exact Hl]. destruct ext; [|destruct He; left; reflexivity]. apply N.ltb_lt in Hid. rewrite Hid.
    exists (LinuxFrame (Frame now id false data)). split; [reflexivity|]. split; [reflexivity|split; reflexivity].
  - destruct s as [b| |]; [|destruct Hs..]. cbn [left_out] in Hs. destruct (Nat.leb_spec (length match b_data b with Some data => data | None => [] end) capacity) as [Hl|Hl]; [|exact IH].
    destruct Hs as [Hs|Hs]; [|lia]. rewrite Hs. exact IH.
Qed.
Print Assumptions C125_receive_partial.
(** A remote frame, which carries no data, is received as a frame with empty data. *)
Theorem C125_remote_refuted : exists b f, b_data b = None /\ forall rest, linux_receive 8 0 (SocketFrame b :: rest) = Some (rest, Ok (LinuxFrame f)).
Proof. exists (BxFrame true 5 None), (Frame 0 5 false []). split; [reflexivity|]. intro rest. reflexivity. Qed.
Print Assumptions C125_remote_refuted.

(** With enough memory and at most as many subscriptions as the kernel takes filters, applying filters does not panic, and the extended frames that pass are exactly those that a subscription needs. *)
Theorem C125_filters_partial : forall max local ps alloc, Forall port_ok ps -> node_ok local -> (forall n, alloc n = true) -> (length ps <= max)%nat ->
  exists fs, linux_filters max local ps alloc = Ok fs /\ forall b, b_extended b = true -> b_id b < 2 ^ 29 -> (socket_accepts fs b = true <-> exists p, In p ps /\ wanted local p (b_id b)).
Proof.
  intros max local ps alloc Hps Hn Ha Hlen. unfold linux_filters, optimize_filters.
  assert (X : forall n, exists l, make_filters ps local alloc n = Some l).
  { clear - Ha. induction ps as [|p ps' IH]; intro n; cbn [make_filters]; [eexists; reflexivity|]. destruct (make_filter p local); [|apply IH]. rewrite Ha. destruct (IH (S n)) as (l & ->). eexists. reflexivity. }
  destruct (X O) as (l & Em). rewrite Em. destruct (make_filters_exact local ps alloc Hps Hn 0 l Em) as (L1 & L2).
  destruct (optimize_spec l (S (length ps)) ltac:(lia) (make_filters_valid _ _ _ _ _ Em)) as (o & E1 & _ & _ & _ & E2). rewrite E1, (E2 ltac:(lia)).
  replace (length l <=? max)%nat with true by (symmetry; apply Nat.leb_le; lia). exists l. split; [reflexivity|]. intros b _ Hid. apply (L2 (b_id b) Hid).
Qed.
Print Assumptions C125_filters_partial.
(** With 513 subscriptions, or without memory, applying filters panics. *)
Theorem C125_filters_refuted : exists ps, Forall port_ok ps /\ length ps = 513%nat /\ linux_filters 512 (Some 42) ps (fun _ => true) = Panic /\ linux_filters 512 (Some 42) [PMsg 7] (fun _ => false) = Panic.
Proof.
  exists (map (fun n => PMsg (N.of_nat n)) (seq 0 513)). split; [|split; [vm_compute; reflexivity|split; vm_compute; reflexivity] ].
  rewrite Forall_map, Forall_forall. intros n Hn. apply in_seq in Hn. cbn [port_ok]. lia.
Qed.
Print Assumptions C125_filters_refuted.

(** Readings of the clock wrap around every 2^32 microseconds; two readings less than 2^31 microseconds apart are in the right order. *)
Theorem C125_clock : forall a b, a < b -> b - a < 2 ^ 31 -> t_lt (system_clock a) (system_clock b) = true /\ t_lt (system_clock b) (system_clock a) = false /\ system_clock a < 2 ^ 32.
Proof.
  intros a b H1 H2. unfold system_clock, w32, t_lt, t_sub. change (2 ^ 32) with 4294967296 in *. change (2 ^ 31) with 2147483648 in *.
  destruct (N.eqb_spec (a mod 4294967296) (b mod 4294967296)); [lia|]. destruct (N.eqb_spec (b mod 4294967296) (a mod 4294967296)); [lia|]. rewrite N.ltb_lt, N.ltb_ge. lia.
Qed.
Print Assumptions C125_clock.

Example C125_witness :
  linux_transmit 8 5 (Frame 10 7 false [1; 2]) (fun _ => Written) = Ok (Some (BxFrame true 7 (Some [1; 2])), TxOk None) /\
  linux_transmit 8 11 (Frame 10 7 false [1; 2]) (fun _ => Written) = Ok (None, TxOk None) /\
  Forall (left_out 8) [SocketFrame (BxFrame false 3 (Some [1])); SocketFrame (BxFrame true 3 (Some [1; 2; 3; 4; 5; 6; 7; 8; 9]))] /\ ~ left_out 8 (SocketFrame (BxFrame true 3 (Some [1]))) /\
  linux_receive 8 4 [SocketFrame (BxFrame false 3 (Some [1])); SocketFrame (BxFrame true 3 (Some [1; 2; 3; 4; 5; 6; 7; 8; 9])); SocketFrame (BxFrame true 3 (Some [1])); SocketWouldBlock] =
    Some ([SocketWouldBlock], Ok (LinuxFrame (Frame 4 3 false [1]))) /\
  (exists fs, linux_filters 512 (Some 42) [PMsg 4919; PReq 430] (fun _ => true) = Ok fs /\ socket_accepts fs (BxFrame true 0x1073373b (Some [])) = true) /\
  t_lt (system_clock 4294967290) (system_clock 4294967300) = true.
Proof.
  split; [reflexivity|]. split; [reflexivity|]. split; [constructor; [left; reflexivity|constructor; [right; cbn; lia|constructor] ]|]. split; [intros [H|H]; [discriminate H|cbn in H; lia]|].
  split; [reflexivity|]. split; [eexists; split; [vm_compute; reflexivity|vm_compute; reflexivity]|vm_compute; reflexivity].
Qed.
