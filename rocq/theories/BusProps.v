(** Property theorems for transfers over a CAN bus (C126). *)
From Verif Require Import Base BitLemmas CoreModel CrcModel FilterModel CanIdModel CanSpec CanIdProofs FilterProofs CanTxModel CanTxSpec CanTxProofs CanQueueModel CanQueueSpec CanQueueProofs CanFlushProofs
  CanRxModel CanRxSpec CanRxProofs CanRxProps CanIdProps BxModel BxSpec BxProofs BxQueueProofs BxRxProofs BxProps BusSpec BusProofs.

Ltac Zify.zify_post_hook ::= Z.div_mod_to_equations.

(** * C126: transfers from one node to another *)

(** A node with an output queue and a bxCAN driver sends transfers of all kinds.  Those on port [p] have the same priority (and destination) and consecutive transfer IDs,
    their deadlines do not pass, and all their frames have left the queue and the mailboxes.
    Another node has a bxCAN driver whose filters include [p], and a receiver with any history that is subscribed to [p].  Frames of other nodes may arrive on the bus at any time, and
    the node may send frames and change its other subscriptions.  Of the source [s] on [p] the frames on the bus are those the first node has sent, in this order; all have been received.
    Then the receiver has delivered exactly these transfers from [s] on [p], each once and in the order in which they were sent, with payloads cut to the maximum size.
    Missing: transfers of different priorities (see below). *)
Theorem C126_delivered_partial : forall cap banks script ts q x k p s prio dest n ops y outs id h r timeout max rops r' couts,
  (* the sender *)
  (forall j, fst (script j) < 2 ^ 32) -> sender cap banks script ts q (Ok x, k) ->
  Forall (fun t => h_prio (t_header t) = prio /\ h_dest (t_header t) = dest /\ bytes_ok (t_payload t) /\ forall j, t_lt (h_ts (t_header t)) (fst (script j)) = false) (filter (comes_from p s) ts) ->
  consecutive (map (fun t => h_tid (t_header t)) (filter (comes_from p s) ts)) ->
  Forall (fun b => wire_by p s b = false) (BxSpec.pending (bx_can x)) -> Forall (fun f => sent_by p s f = false) (drain (S cap) q) ->
  (* the bus and the receiving driver *)
  (1 <= n)%nat -> Forall op_ok ops -> Forall (filters_for (can_node id h) p) ops -> (exists o rest, ops = o :: rest /\ sets_filters o) -> Forall (not_from p s) ops ->
  filter (wire_by p s) (on_bus ops) = filter (wire_by p s) (sent (bx_can x)) ->
  bx_run ops (bx_new n) = Ok (y, outs) -> Forall (fun b => wire_by p s b = false) (waiting (bx_can y)) ->
  (* the receiver *)
  can_hist id h r -> can_active p h = Some (timeout, max) -> (forall d, dest = Some d -> can_node id h = Some d) ->
  (forall t, hd_error (filter (comes_from p s) ts) = Some t ->
     (forall g, In g (CanRxSpec.pending p s h) -> ~ with_tid (h_tid (t_header t)) g /\ ~ with_tid (tid_incr (h_tid (t_header t))) g) /\
     (forall d, last_delivery p s h = Some d -> h_tid (t_header d) <> h_tid (t_header t))) ->
  given_frames rops = flat_map received outs -> Forall can_op_ok rops -> Forall (leaves p) rops -> can_run r rops = Ok (r', couts) ->
  Forall2 (received_as max) (filter (comes_from p s) ts) (flat_map (delivered p s) couts).
Proof.
  intros cap banks script ts q x k p s prio dest n ops y outs id h r timeout max rops r' couts Hs Hsend Hmine Hcons Hpend Hq Hn Hops Hfil Hset Hnot Hbus Hrun Hwait Hh Hact Hdest Hstart Hgiven Hrok Hleaves Hcrun.
  destruct (sender_system cap banks script ts q (Ok x, k) Hs Hsend) as (frs & Hfrs & Hsys). destruct (frames_filter p s ts frs Hfrs) as (frss & Hfrss & Efrss).
  assert (Hmine' : forall t fr f, In t ts -> frames_of t fr -> In f fr -> sent_by p s f = true -> comes_from p s t = true /\ h_prio (t_header t) = prio /\ h_dest (t_header t) = dest /\ forall j, t_lt (h_ts (t_header t)) (fst (script j)) = false).
  { intros t fr f Ht Hfr Hf Hby. rewrite (frames_by p s t fr f Hfr Hf) in Hby. rewrite Forall_forall in Hmine. destruct (Hmine t ltac:(apply filter_In; split; assumption)) as (H1 & H2 & _ & H4). auto. }
  assert (Hsent : filter (wire_by p s) (sent (bx_can x)) = map on_wire (filter (sent_by p s) (concat frs))).
  { apply (sent_exactly cap banks script (concat frs) q x k p s Hs Hsys); [| |exact Hpend|exact Hq].
    - intros f g Hf Hg Bf Bg. destruct (in_frames _ _ _ Hfrs Hf) as (t & fr & Ht & Hfr & Hf'). destruct (in_frames _ _ _ Hfrs Hg) as (t' & fr' & Ht' & Hfr' & Hg').
      destruct (Hmine' t fr f Ht Hfr Hf' Bf) as (C1 & C2 & C3 & _). destruct (Hmine' t' fr' g Ht' Hfr' Hg' Bg) as (D1 & D2 & D3 & _). apply comes_from_iff in C1, D1.
      rewrite (proj1 (frames_id _ _ _ Hfr Hf')), (proj1 (frames_id _ _ _ Hfr' Hg')). apply (can_id_same t t' s); [| apply C1 | apply D1 | |]; [rewrite (proj1 C1), (proj1 D1); reflexivity|congruence|congruence].
    - intros f j Hf Bf. destruct (in_frames _ _ _ Hfrs Hf) as (t & fr & Ht & Hfr & Hf'). destruct (Hmine' t fr f Ht Hfr Hf' Bf) as (_ & _ & _ & C4). rewrite (proj1 (proj2 (frames_id _ _ _ Hfr Hf'))). apply C4. }
  destruct (driver_receives (can_node id h) p s n ops y outs (concat frs) Hn Hops Hfil Hset Hnot Hrun Hwait) as (R1 & R2).
  { rewrite Hbus, Hsent, wire_filter. reflexivity. }
  { intros f Hf Bf. destruct (in_frames _ _ _ Hfrs Hf) as (t & fr & Ht & Hfr & Hf'). destruct (frames_id _ _ _ Hfr Hf') as (_ & _ & F3 & F4). split; [exact F3|]. destruct (Hmine' t fr f Ht Hfr Hf' Bf) as (C1 & _ & C3 & _).
    apply comes_from_iff in C1. exists (t_header t). split; [exact F4|]. split; [apply C1|]. rewrite C3. destruct dest as [d|]; [right; rewrite (Hdest d eq_refl); split; [reflexivity|discriminate]|left; reflexivity]. }
  rewrite Efrss in R1. set (gs := filter (sent_by p s) (flat_map received outs)) in *.
  assert (Gok : Forall frame_ok gs).
  { apply Forall_forall. intros g Hg. apply filter_In in Hg. destruct Hg as (Hg & _). rewrite <- Hgiven in Hg. unfold given_frames in Hg. apply in_flat_map in Hg. destruct Hg as (op & Hop & Hg). rewrite Forall_forall in Hrok. specialize (Hrok op Hop).
    destruct op as [f mem|a b c d|a|a]; try contradiction. destruct Hg as [<-|[] ]. exact Hrok. }
  assert (Hall : Forall (fun t => h_port (t_header t) = p /\ h_source (t_header t) = Some s /\ bytes_ok (t_payload t) /\ forall d, h_dest (t_header t) = Some d -> can_node id h = Some d) (filter (comes_from p s) ts)).
  { apply Forall_forall. intros t Ht. rewrite Forall_forall in Hmine. destruct (Hmine t Ht) as (_ & H2 & H3 & _). apply filter_In in Ht. destruct Ht as (_ & Ht). apply comes_from_iff in Ht. split; [apply Ht|]. split; [apply Ht|]. split; [exact H3|].
    intros d Ed. apply Hdest. congruence. }
  destruct (receive_sequence id p s timeout max _ frss Hfrss h r gs Hh Hact Hall Hcons R1 R2 Gok Hstart) as (r1 & outs1 & E1 & F1).
  rewrite (delivered_concerning p s r rops r' couts Hrok Hcrun). destruct (C19_no_interference r rops r' couts p s Hrok Hcrun) as ((r2 & E2) & _).
  rewrite (leaves_concerns p s rops Hleaves), Hgiven in E2. fold gs in E2. rewrite E1 in E2. injection E2 as _ <-. exact F1.
Qed.
Print Assumptions C126_delivered_partial.

(** Node 7 sends eight bytes on subject 10, then another message of high priority, then two bytes on subject 10; node 3 also receives frames of node 8. *)
Definition bus_script : nat -> N * list nat := fun _ => (10, []).
Definition bus_a := Transfer (HMsg (MsgH 100 3 4 10 (Some 7))) false (repeat 1 8).
Definition bus_o := Transfer (HMsg (MsgH 100 0 1 20 (Some 7))) true [5].
Definition bus_b := Transfer (HMsg (MsgH 100 4 4 10 (Some 7))) false [2; 3].
Definition pushed_to (q : array_queue) (t : transfer) : array_queue :=
  match push_inner (lift_reserve aq_ops) (lift_transmit aq_ops) 8 8 (Ok q) t with Ok (Ok q', PushOk) => q' | _ => q end.
Definition flushed (s : array_queue * (res bx_driver * nat)) : array_queue * (res bx_driver * nat) :=
  match bx_flush bus_script 40 (fst s) (snd s) with Ok (Some (q', w', _)) => (q', w') | _ => s end.
Definition mailbox_sent (m : nat) (s : array_queue * (res bx_driver * nat)) : array_queue * (res bx_driver * nat) :=
  match s with (q, (Ok x, k)) => (q, (Ok (on_device (dev_send m) x), k)) | _ => s end.
Definition reached cap ts (s : array_queue * (res bx_driver * nat)) : Prop := sender cap 14 bus_script ts (fst s) (snd s).
Definition push_state (t : transfer) (s : array_queue * (res bx_driver * nat)) := (pushed_to (fst s) t, snd s).
Lemma pushed_sender cap ts s t : reached cap ts s -> can_header_ok (t_header t) ->
  match push_inner (lift_reserve aq_ops) (lift_transmit aq_ops) 8 8 (Ok (fst s)) t with Ok (Ok _, PushOk) => true | _ => false end = true -> reached cap (ts ++ [t]) (push_state t s).
Proof.
  intros H Hh E. unfold reached, push_state, pushed_to. cbn [fst snd]. destruct (push_inner _ _ 8 8 (Ok (fst s)) t) as [ [ [q'|] [| | |] ]|] eqn:Ep; try discriminate. eapply sender_push; eassumption.
Qed.
Lemma flushed_sender cap ts s : reached cap ts s -> reached cap ts (flushed s).
Proof.
  intro H. unfold flushed. destruct (bx_flush bus_script 40 (fst s) (snd s)) as [ [ [ [q' w'] r]|]|] eqn:E; [|exact H..]. unfold reached. cbn [fst snd]. eapply sender_flush; [exact H|exact E].
Qed.
Lemma sent_sender cap ts s m : reached cap ts s -> reached cap ts (mailbox_sent m s).
Proof. unfold reached. destruct s as [q [ [x|] k] ]; cbn [fst snd mailbox_sent]; intro H; [apply sender_send|]; exact H. Qed.

Definition bus_new cap : array_queue * (res bx_driver * nat) := (aq_new cap, (Ok (bx_new 14), O)).
Definition bus_1 := push_state bus_o (push_state bus_a (bus_new 8)).
Definition bus_2 := push_state bus_b (mailbox_sent 0 (flushed bus_1)).
Definition bus_3 := mailbox_sent 0 (mailbox_sent 1 (flushed bus_2)).
Definition bus_4 := mailbox_sent 0 (mailbox_sent 1 (flushed bus_3)).
Definition bus_end := mailbox_sent 0 (mailbox_sent 1 (flushed bus_4)).
Definition bus_sent : list bx_frame := match bus_end with (_, (Ok x, _)) => sent (bx_can x) | _ => [] end.
Definition bus_ops : list bx_op :=
  OpFilters (Some 3) [PMsg 10] (fun _ => true) :: flat_map (fun b => [OpArrive b; OpArrive (BxFrame true 0x10600a08 (Some [9; 9; 0xe3])); OpReceive 50; OpReceive 51]) bus_sent.
Definition bus_received : list frame := match bx_run bus_ops (bx_new 14) with Ok (_, outs) => flat_map received outs | Panic => [] end.

Lemma header_ok_msg ts tid prio subject source : ts < 2 ^ 32 -> tid <= 31 -> prio <= 7 -> subject <= 8191 -> source <= 127 -> can_header_ok (HMsg (MsgH ts tid prio subject (Some source))).
Proof. intros H1 H2 H3 H4 H5. split; [exact H3|]. split; [exact H2|]. split; [exact H1|]. split; [exact H4|]. cbn [mh_source]. intros n E. injection E as <-. exact H5. Qed.
Lemma bus_sender : reached 8 [bus_a; bus_o; bus_b] bus_end.
Proof.
  unfold bus_end. apply sent_sender, sent_sender, flushed_sender. unfold bus_4. apply sent_sender, sent_sender, flushed_sender. unfold bus_3. apply sent_sender, sent_sender, flushed_sender.
  unfold bus_2. apply (pushed_sender 8 [bus_a; bus_o]); [|apply header_ok_msg; vm_compute; congruence|vm_compute; reflexivity]. apply sent_sender, flushed_sender.
  unfold bus_1. apply (pushed_sender 8 [bus_a]); [|apply header_ok_msg; vm_compute; congruence|vm_compute; reflexivity].
  apply (pushed_sender 8 []); [apply sender_new|apply header_ok_msg; vm_compute; congruence|vm_compute; reflexivity].
Qed.
Example C126_witness :
  filter (comes_from (PMsg 10) 7) [bus_a; bus_o; bus_b] = [bus_a; bus_b] /\ consecutive [3; 4] /\
  (exists q x k, bus_end = (q, (Ok x, k)) /\ sender 8 14 bus_script [bus_a; bus_o; bus_b] q (Ok x, k) /\ BxSpec.pending (bx_can x) = [] /\ drain 9 q = [] /\ length (sent (bx_can x)) = 4%nat) /\
  (exists y outs, bx_run bus_ops (bx_new 14) = Ok (y, outs) /\ waiting (bx_can y) = [] /\ filter (wire_by (PMsg 10) 7) (on_bus bus_ops) = filter (wire_by (PMsg 10) 7) bus_sent) /\
  length bus_received = 7%nat /\
  exists r r' couts, can_hist (Some 3) [(CSub (PMsg 10) 1000 5 true, CSubbed SubscribeOk)] r /\ can_run r (map (fun g => CFrame g true) bus_received) = Ok (r', couts) /\
    flat_map (delivered (PMsg 10) 7) couts = [Transfer (HMsg (MsgH 50 3 4 10 (Some 7))) false [1; 1; 1; 1; 1]; Transfer (HMsg (MsgH 50 4 4 10 (Some 7))) false [2; 3] ].
Proof.
  split; [vm_compute; reflexivity|]. split; [split; [reflexivity|exact I]|]. split.
  { pose proof bus_sender as H. assert (E : let (q, w) := bus_end in let (d, k) := w in match d with Ok x => (BxSpec.pending (bx_can x), drain 9 q, length (sent (bx_can x))) | Panic => ([], [], O) end = ([], [], 4%nat)) by (vm_compute; reflexivity).
    revert H E. generalize bus_end. intros [q [ [x|] k] ]; [|discriminate]. intros H E. exists q, x, k. split; [reflexivity|]. split; [exact H|].
    split; [exact (f_equal (fun z => fst (fst z)) E)|split; [exact (f_equal (fun z => snd (fst z)) E)|exact (f_equal snd E)] ]. }
  split; [eexists _, _; split; [vm_compute; reflexivity|split; vm_compute; reflexivity]|]. split; [vm_compute; reflexivity|].
  eexists _, _, _. split; [eapply ch_step; [apply ch_new|exact I|reflexivity]|]. split; [vm_compute; reflexivity|]. vm_compute. reflexivity.
Qed.

(** Node 7 sends twenty bytes on subject 10 with low priority and, while these are on their way, two bytes on the same subject with high priority.  No deadline passes and no frame is lost.
    Only the second transfer is delivered. *)
Definition bus_low := Transfer (HMsg (MsgH 100 3 6 10 (Some 7))) false (repeat 1 20).
Definition bus_high := Transfer (HMsg (MsgH 100 4 2 10 (Some 7))) false [2; 3].
Definition mix_1 := mailbox_sent 0 (flushed (push_state bus_low (bus_new 8))).
Definition mix_2 := push_state bus_high mix_1.
Definition mix_3 := mailbox_sent 0 (mailbox_sent 1 (flushed mix_2)).
Definition mix_4 := mailbox_sent 0 (mailbox_sent 1 (flushed mix_3)).
Definition mix_5 := mailbox_sent 0 (mailbox_sent 1 (flushed mix_4)).
Definition mix_end := mailbox_sent 0 (mailbox_sent 1 (flushed mix_5)).
Lemma mix_sender : reached 8 [bus_low; bus_high] mix_end.
Proof.
  unfold mix_end. apply sent_sender, sent_sender, flushed_sender. unfold mix_5. apply sent_sender, sent_sender, flushed_sender. unfold mix_4. apply sent_sender, sent_sender, flushed_sender. unfold mix_3. apply sent_sender, sent_sender, flushed_sender.
  unfold mix_2. apply (pushed_sender 8 [bus_low]); [|apply header_ok_msg; vm_compute; congruence|vm_compute; reflexivity]. unfold mix_1. apply sent_sender, flushed_sender.
  apply (pushed_sender 8 []); [apply sender_new|apply header_ok_msg; vm_compute; congruence|vm_compute; reflexivity].
Qed.
Theorem C126_priorities_refuted : exists cap banks script ts q x k gs r couts,
  (forall j, fst (script j) < 2 ^ 32) /\ sender cap banks script ts q (Ok x, k) /\
  Forall (fun t => comes_from (PMsg 10) 7 t = true /\ forall j, t_lt (h_ts (t_header t)) (fst (script j)) = false) ts /\ consecutive (map (fun t => h_tid (t_header t)) ts) /\
  BxSpec.pending (bx_can x) = [] /\ drain (S cap) q = [] /\ map on_wire gs = sent (bx_can x) /\
  can_run (rx_new None) (CSub (PMsg 10) 1000 100 true :: map (fun g => CFrame g true) gs) = Ok (r, couts) /\
  length ts = 2%nat /\ map t_payload (flat_map (delivered (PMsg 10) 7) couts) = [ [2; 3] ].
Proof.
  exists 8%nat, 14%nat, bus_script, [bus_low; bus_high].
  pose proof mix_sender as H.
  assert (E : let (q, w) := mix_end in let (d, k) := w in match d with Ok x => (BxSpec.pending (bx_can x), drain 9 q, sent (bx_can x)) | Panic => ([], [], []) end =
    ([], [], map on_wire [Frame 50 0x18600a07 false [1;1;1;1;1;1;1;0xa3]; Frame 51 0x08600a07 false [2;3;0xe4]; Frame 52 0x18600a07 false [1;1;1;1;1;1;1;0x03]; Frame 53 0x18600a07 false [1;1;1;1;1;1;0xe8;0x23]; Frame 54 0x18600a07 false [0x90; 0x43] ])).
  { vm_compute. reflexivity. }
  revert H E. generalize mix_end. intros [q [ [x|] k] ]; [|discriminate]. intros H E. exists q, x, k. eexists _, _, _.
  split; [intro j; reflexivity|]. split; [exact H|]. split; [repeat constructor|]. split; [split; [reflexivity|exact I]|]. split; [exact (f_equal (fun z => fst (fst z)) E)|]. split; [exact (f_equal (fun z => snd (fst z)) E)|].
  split; [symmetry; exact (f_equal snd E)|]. split; [vm_compute; reflexivity|]. split; [reflexivity|]. vm_compute. reflexivity.
Qed.
Print Assumptions C126_priorities_refuted.
