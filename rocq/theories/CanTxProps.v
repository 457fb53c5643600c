(** Property theorems for CAN transmission (C15, C16, C17). *)
From Verif Require Import Base BitLemmas CoreModel CrcModel CanIdModel CanSpec CanIdProofs CanTxModel CanTxSpec CanTxProofs
  CanQueueModel CanQueueSpec CanQueueProofs CanFlushProofs.

(** C15: a transfer is cut into well-formed frames, and these are handed to the driver, in order, until it refuses one.
    The frames depend on the transfer only, not on the driver.  No panic. *)
Theorem C15_segmentation_well_formed : forall fcap mtu t,
  mtu = 8%nat \/ mtu = 64%nat -> (mtu <= fcap)%nat -> can_header_ok (t_header t) ->
  exists frames pad id,
    id_means id (t_header t) /\ segmented mtu t frames pad id /\
    (forall f, In f frames -> valid_len (length (f_data f)) /\ (1 <= length (f_data f) <= mtu)%nat) /\
    (forall i f, nth_error frames i = Some f ->
       exists data b, f_data f = data ++ [b] /\
         parse_tail b = Tail (i =? 0)%nat (S i =? length frames)%nat (Nat.even i) (h_tid (t_header t))) /\
    (* padding is the least that makes the last frame a valid one *)
    (forall f k, nth_error frames (length frames - 1) = Some f -> (length (f_data f) - pad <= k < length (f_data f))%nat -> ~ valid_len k) /\
    (mtu = 8%nat -> pad = O) /\
    (length frames = 1%nat <-> (length (t_payload t) < mtu)%nat) /\
    forall D (reserve : D -> nat -> D * bool) transmit d,
      push_inner reserve transmit fcap mtu d t =
      Ok (match reserve d (length frames) with
          | (d1, false) => (d1, PushMemory)
          | (d1, true) => send_all transmit d1 frames
          end).
Proof.
  intros fcap mtu t Hm Hf Hh. destruct (push_inner_spec fcap mtu t Hm Hf Hh) as (frames & pad & id & Hid & Hseg & Hlen & Hmin & _ & H8 & Hone & _ & Hpush).
  exists frames, pad, id. rewrite make_can_id_spec in Hid by assumption. split; [replace id with (can_id_value (t_header t) (t_payload t)) by congruence; apply can_id_value_means, Hh|].
  split; [assumption|]. split; [apply Forall_forall; assumption|]. split.
  - intros i f Hi. destruct Hseg as (chunks & _ & _ & _ & Hl & Hfr).
    assert (Hc : exists c, nth_error chunks i = Some c).
    { destruct (nth_error chunks i) eqn:E; [eauto|]. apply nth_error_None in E. assert (i < length frames)%nat by (apply nth_error_Some; congruence). lia. }
    destruct Hc as (c & Hc). rewrite (Hfr i c Hc) in Hi. injection Hi as <-. cbn [f_data]. eexists; eexists; split; [reflexivity|].
    assert (Ht : h_tid (t_header t) <= 31) by (destruct Hh as (_ & Ht & _); exact Ht).
    rewrite <- make_tail_tail_byte by assumption. rewrite Hl. apply parse_make_tail. assumption.
  - split; [assumption|]. split; [assumption|]. split; [lia|assumption].
Qed.
Print Assumptions C15_segmentation_well_formed.

(** a driver that takes everything and remembers what it was asked *)
Definition log_reserve (d : list nat * list frame) (n : nat) : list nat * list frame * bool := ((fst d ++ [n], snd d), true).
Definition log_transmit (d : list nat * list frame) (f : frame) : list nat * list frame * tx_res := ((fst d, snd d ++ [f]), TxOk None).

Definition c15_transfer n := Transfer (HMsg (MsgH 5 3 4 10 (Some 7))) false (repeat 1 n).
Example C15_witness :
  can_header_ok (t_header (c15_transfer 8)) /\
  push_inner log_reserve log_transmit 8 8 ([], []) (c15_transfer 8) =
    Ok (([2%nat], [Frame 5 0x10600a07 false [1;1;1;1;1;1;1;0xa3]; Frame 5 0x10600a07 false [1;0x43;0xe9;0x43]]), PushOk) /\
  push_inner log_reserve log_transmit 64 64 ([], []) (c15_transfer 9) =
    Ok (([1%nat], [Frame 5 0x10600a07 false [1;1;1;1;1;1;1;1;1;0;0;0xe3]]), PushOk).
Proof.
  split; [|split]; [|vm_compute; reflexivity|vm_compute; reflexivity].
  unfold can_header_ok. cbn. repeat split; try lia. intros s E. injection E as <-. lia.
Qed.

(** C16: the number of frames reserved is the number of frames sent. *)
Theorem C16_reservation_exact : forall fcap mtu t,
  mtu = 8%nat \/ mtu = 64%nat -> (mtu <= fcap)%nat -> can_header_ok (t_header t) ->
  exists n frames, push_inner log_reserve log_transmit fcap mtu ([], []) t = Ok (([n], frames), PushOk) /\ length frames = n.
Proof.
  intros fcap mtu t Hm Hf Hh. destruct (push_inner_spec fcap mtu t Hm Hf Hh) as (frames & pad & id & _ & _ & _ & _ & _ & _ & _ & _ & Hpush).
  exists (length frames), frames. rewrite Hpush. unfold log_reserve at 1. cbn [fst snd app].
  assert (H : forall fs l n, send_all log_transmit (n, l) fs = ((n, l ++ fs), PushOk)).
  { induction fs as [|f fs IH]; intros l n; cbn [send_all]; [rewrite app_nil_r; reflexivity|]. unfold log_transmit at 1. cbn [fst snd].
    rewrite IH, <- app_assoc. reflexivity. }
  rewrite H. auto.
Qed.
Print Assumptions C16_reservation_exact.

Example C16_witness : exists fs, push_inner log_reserve log_transmit 64 64 ([], []) (c15_transfer 300) = Ok (([5%nat], fs), PushOk).
Proof. eexists. vm_compute. reflexivity. Qed.

(** C17: a push to a queue either queues all frames of the transfer, each behind the frames of equal or higher priority,
    or reports lack of memory and leaves the queue as it was; it is refused exactly when the frames do not fit. *)
Theorem C17_all_or_nothing : forall cap q fcap mtu t,
  queue_reach cap q -> mtu = 8%nat \/ mtu = 64%nat -> (mtu <= fcap)%nat -> can_header_ok (t_header t) ->
  exists frames pad id, id_means id (t_header t) /\ segmented mtu t frames pad id /\
    if (length (drain (S cap) q) + length frames <=? cap)%nat then
      exists q', push_inner (lift_reserve aq_ops) (lift_transmit aq_ops) fcap mtu (Ok q) t = Ok (Ok q', PushOk) /\
        drain (S cap) q' = fold_left (fun l f => insert_behind f l) frames (drain (S cap) q)
    else push_inner (lift_reserve aq_ops) (lift_transmit aq_ops) fcap mtu (Ok q) t = Ok (Ok q, PushMemory).
Proof.
  intros cap q fcap mtu t Hq Hm Hf Hh. destruct (reach_holds cap q Hq) as (l & Hl).
  destruct (push_inner_spec fcap mtu t Hm Hf Hh) as (frames & pad & id & Hid & Hseg & _ & _ & _ & _ & _ & _ & Hpush).
  exists frames, pad, id. rewrite make_can_id_spec in Hid by assumption. split; [replace id with (can_id_value (t_header t) (t_payload t)) by congruence; apply can_id_value_means, Hh|].
  split; [assumption|]. rewrite (holds_drain cap q l Hl).
  rewrite Hpush. cbn [lift_reserve q_reserve aq_ops]. rewrite (aq_reserve_spec cap q l _ Hl).
  destruct (Nat.leb_spec (length l + length frames) cap) as [Hle|Hgt]; [|reflexivity].
  destruct (send_all_queue aq_ops cap (holds cap) (aq_correct cap) frames q l Hl Hle) as (q' & E & H'). exists q'. rewrite E.
  split; [reflexivity|]. apply holds_drain. assumption.
Qed.
Print Assumptions C17_all_or_nothing.

(** C17, for a queue of one frame. *)
Theorem C17_all_or_nothing_single : forall q fcap mtu t,
  mtu = 8%nat \/ mtu = 64%nat -> (mtu <= fcap)%nat -> can_header_ok (t_header t) ->
  exists frames pad id, id_means id (t_header t) /\ segmented mtu t frames pad id /\
    push_inner (lift_reserve sq_ops) (lift_transmit sq_ops) fcap mtu (Ok q) t =
    match q, frames with
    | None, [f] => Ok (Ok (Some f), PushOk)
    | _, _ => Ok (Ok q, PushMemory)
    end.
Proof.
  intros q fcap mtu t Hm Hf Hh.
  destruct (push_inner_spec fcap mtu t Hm Hf Hh) as (frames & pad & id & Hid & Hseg & _ & _ & _ & _ & _ & _ & Hpush).
  exists frames, pad, id. rewrite make_can_id_spec in Hid by assumption. split; [replace id with (can_id_value (t_header t) (t_payload t)) by congruence; apply can_id_value_means, Hh|].
  split; [assumption|]. rewrite Hpush. cbn [lift_reserve q_reserve sq_ops]. destruct q as [g|]; [reflexivity|]. cbn [sq_reserve].
  destruct frames as [|f [|f2 fs]]; reflexivity.
Qed.
Print Assumptions C17_all_or_nothing_single.

(** C17, for a redundant pair of drivers that keep their reservations: each driver on its own gets all frames or none. *)
Theorem C17_all_or_nothing_redundant : forall D0 D1 reserve0 reserve1 transmit0 transmit1 (d : redundant D0 D1) fcap mtu t,
  mtu = 8%nat \/ mtu = 64%nat -> (mtu <= fcap)%nat -> can_header_ok (t_header t) ->
  (forall n d' fs, reserve0 (rd_0 d) n = (d', true) -> length fs = n -> snd (send_all transmit0 d' fs) = PushOk) ->
  (forall n d' fs, reserve1 (rd_1 d) n = (d', true) -> length fs = n -> snd (send_all transmit1 d' fs) = PushOk) ->
  exists frames pad id, id_means id (t_header t) /\ segmented mtu t frames pad id /\
    let r0 := reserve0 (rd_0 d) (length frames) in
    let r1 := reserve1 (rd_1 d) (length frames) in
    exists d', push_inner (rd_reserve reserve0 reserve1) (rd_transmit transmit0 transmit1) fcap mtu d t =
                 Ok (d', if snd r0 || snd r1 then PushOk else PushMemory) /\
      rd_0 d' = (if snd r0 then fst (send_all transmit0 (fst r0) frames) else fst r0) /\
      rd_1 d' = (if snd r1 then fst (send_all transmit1 (fst r1) frames) else fst r1).
Proof.
  intros D0 D1 reserve0 reserve1 transmit0 transmit1 d fcap mtu t Hm Hf Hh H0 H1.
  destruct (push_inner_spec fcap mtu t Hm Hf Hh) as (frames & pad & id & Hid & Hseg & _ & _ & _ & _ & _ & _ & Hpush).
  exists frames, pad, id. rewrite make_can_id_spec in Hid by assumption. split; [replace id with (can_id_value (t_header t) (t_payload t)) by congruence; apply can_id_value_means, Hh|].
  split; [assumption|]. cbv zeta. rewrite Hpush. unfold rd_reserve.
  specialize (H0 (length frames)). specialize (H1 (length frames)).
  destruct (reserve0 (rd_0 d) (length frames)) as [e0 ok0]. destruct (reserve1 (rd_1 d) (length frames)) as [e1 ok1]. cbn [fst snd].
  destruct (ok0 || ok1) eqn:Eo.
  - rewrite rd_send_all; [|assumption| |].
    + eexists. split; [reflexivity|]. cbn [rd_0 rd_1]. auto.
    + intros ->. apply (H0 e0); reflexivity.
    + intros ->. apply (H1 e1); reflexivity.
  - eexists. split; [reflexivity|]. cbn [rd_0 rd_1]. apply orb_false_elim in Eo as (-> & ->). auto.
Qed.
Print Assumptions C17_all_or_nothing_redundant.

Example C17_witness :
  queue_reach 3 (aq_new 3) /\
  (exists q, push_inner (lift_reserve aq_ops) (lift_transmit aq_ops) 8 8 (Ok (aq_new 3)) (c15_transfer 8) = Ok (Ok q, PushOk) /\
     length (drain 4 q) = 2%nat /\
     push_inner (lift_reserve aq_ops) (lift_transmit aq_ops) 8 8 (Ok q) (c15_transfer 8) = Ok (Ok q, PushMemory)).
Proof. split; [constructor|]. eexists. vm_compute. repeat split. Qed.

(** C17: the queues keep their reservations, so the theorem about redundant drivers applies to them. *)
Theorem C17_reservation_kept : forall cap q n d' fs, queue_reach cap q ->
  lift_reserve aq_ops (Ok q) n = (d', true) -> length fs = n -> snd (send_all (lift_transmit aq_ops) d' fs) = PushOk.
Proof.
  intros cap q n d' fs Hq H Hl. destruct (reach_holds cap q Hq) as (l & Hh). cbn [lift_reserve q_reserve aq_ops] in H.
  rewrite (aq_reserve_spec cap q l n Hh) in H. injection H as <- H. apply Nat.leb_le in H.
  destruct (send_all_queue aq_ops cap (holds cap) (aq_correct cap) fs q l Hh ltac:(lia)) as (q' & -> & _). reflexivity.
Qed.
Print Assumptions C17_reservation_kept.

Theorem C17_reservation_kept_single : forall q n d' fs,
  lift_reserve sq_ops (Ok q) n = (d', true) -> length fs = n -> snd (send_all (lift_transmit sq_ops) d' fs) = PushOk.
Proof.
  intros [g|] n d' fs H Hl; cbn in H; try discriminate. destruct (Nat.eqb_spec n 1) as [->|]; [|discriminate].
  injection H as <-. destruct fs as [|f [|]]; try discriminate. reflexivity.
Qed.
Print Assumptions C17_reservation_kept_single.

Example C17_reservation_witness : lift_reserve aq_ops (Ok (aq_new 3)) 3 = (Ok (aq_new 3), true) /\ lift_reserve sq_ops (Ok None) 1 = (Ok None, true).
Proof. split; reflexivity. Qed.
