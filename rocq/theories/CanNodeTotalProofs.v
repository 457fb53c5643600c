(** Proofs that whole CAN nodes do not panic. *)
From Verif Require Import Base BitLemmas CoreModel CrcModel FilterModel CanIdModel CanSpec CanIdProofs FilterProofs CanTxModel CanTxSpec CanTxProofs CanQueueModel CanQueueSpec CanQueueProofs CanFlushProofs
  CanRxModel CanRxSpec CanRxProofs CanRxProps CanIdProps BxModel BxSpec BxProofs BxQueueProofs BxRxProofs BxProps BusSpec BusProofs NodeModel NodeSpec NodeProofs NodeProps NetSpec NetProofs BxPnpModel CanNodeModel CanNodeSpec CanNodeProofs.

Ltac Zify.zify_post_hook ::= Z.div_mod_to_equations.
Local Strategy 1000 [push_inner bx_flush core_step bx_step bx_filters bx_pnp_receive].

(** * Calls *)

Lemma req_id k P R id0 h n s : kind_ok TransportCan k -> core_hist (core_new TransportCan k P R id0) h n -> req_started s h <> None -> id_after id0 h <> None.
Proof.
  intro Hk. induction 1 as [|h n o n' calls r H IH E Hr]; intro Hq; [exfalso; apply Hq; reflexivity|]. pose proof (i_id _ _ _ _ _ _ _ (hist_inv _ _ _ _ _ _ _ Hk H)) as Hi.
  destruct o; cbn [req_started id_after] in *; try (exact (IH Hq)); try discriminate.
  - destruct r; try exact (IH Hq). cbn [core_step] in E. unfold start_sending_requests in E. rewrite Hi in E. destruct (id_after id0 h); [discriminate|]. discriminate E.
  - destruct (service =? s); [exfalso; apply Hq; reflexivity|exact (IH Hq)].
Qed.
Lemma allowed_ok k P R id0 h n o n' calls r : kind_ok TransportCan k -> core_hist (core_new TransportCan k P R id0) h n -> op_fine o -> call_allowed id0 h o -> core_step n o = (n', calls, r) -> r <> OPanic.
Proof.
  intros Hk H Hf Ha E. pose proof (hist_inv _ _ _ _ _ _ _ Hk H) as V. destruct o.
  - cbn [core_step] in E. unfold start_publishing in E. destruct (im_get _ _); [|destruct (im_insert _ _ _ _)]; injection E as _ _ <-; discriminate.
  - cbn [core_step] in E. injection E as _ _ <-. discriminate.
  - cbn [core_step] in E. unfold publish in E. destruct (im_get _ _); [|injection E as _ _ <-; discriminate]. unfold publisher_publish in E. destruct (serialize_ok _ _); injection E as _ _ <-; [destruct (e_push e)|]; discriminate.
  - cbn [core_step] in E. unfold start_sending_requests in E. destruct (c_id n); [|injection E as _ _ <-; discriminate]. destruct (im_get _ _); [injection E as _ _ <-; discriminate|].
    destruct (im_insert _ _ _ _); [|injection E as _ _ <-; discriminate]. destruct answer; injection E as _ _ <-; discriminate.
  - cbn [core_step] in E. injection E as _ _ <-. discriminate.
  - cbn [call_allowed] in Ha. assert (Hd : destination_ok k destination) by (destruct k; [exact I|destruct Hf as (_ & Hf & _); cbn [destination_ok]; lia]).
    pose proof (send_request_spec _ _ _ _ _ _ _ loopback service payload destination e V Hd) as K. pose proof (req_id _ _ _ _ _ _ service Hk H Ha) as Hi. destruct (req_started service h) as [ [tmo prio]|]; [|congruence]. destruct (id_after id0 h); [|congruence].
    destruct K as [(_ & K)|(_ & _ & tr' & _ & K)]; rewrite K in E; injection E as _ _ <-; [discriminate|destruct (e_push e); discriminate].
  - cbn [core_step] in E. injection E as _ _ <-. destruct answer; discriminate.
  - cbn [core_step] in E. injection E as _ _ <-. discriminate.
  - cbn [core_step] in E. injection E as _ _ <-. destruct answer; discriminate.
  - cbn [core_step] in E. injection E as _ _ <-. discriminate.
  - cbn [core_step call_allowed] in *. unfold send_response in E. rewrite (i_id _ _ _ _ _ _ _ V) in E. destruct (serialize_ok _ _); [|injection E as _ _ <-; discriminate]. destruct (id_after id0 h); [|congruence]. injection E as _ _ <-. destruct (e_push e); discriminate.
  - cbn [core_step] in E. unfold set_node_id in E. injection E as _ _ <-. discriminate.
Qed.
Lemma push_total cap q l t : holds cap q l -> can_header_ok (t_header t) -> exists q' a, push_inner (lift_reserve aq_ops) (lift_transmit aq_ops) 8 8 (Ok q) t = Ok (Ok q', a).
Proof.
  intros Hl Hh. destruct (push_inner_spec 8 8 t (or_introl eq_refl) (le_n _) Hh) as (frames & pad & id & _ & _ & _ & _ & _ & _ & _ & _ & Hpush).
  rewrite Hpush. cbn [lift_reserve q_reserve aq_ops]. rewrite (aq_reserve_spec cap q l _ Hl).
  destruct (Nat.leb_spec (length l + length frames) cap) as [Hle|Hgt]; [|eexists _, _; reflexivity].
  destruct (send_all_queue aq_ops cap (holds cap) (aq_correct cap) frames q l Hl Hle) as (q' & E & H'). rewrite E. eexists _, _; reflexivity.
Qed.
Lemma perform_total mem alloc cap l w calls out z : calls_of w calls out -> (forall t, In (CPush t) calls -> can_header_ok (t_header t)) -> holds cap (cn_queue z) l -> banked (cn_driver z) -> exists z' a b, perform mem alloc calls z = Ok (z', a, b).
Proof.
  intros Hc Ht Hl Hb. destruct z as [n q r x k]. cbn [cn_queue cn_driver] in *.
  assert (S : forall p timeout max, exists r' x' a, receiver_subscribe p timeout max mem alloc r x = Ok (r', x', a)).
  { intros p timeout max. unfold receiver_subscribe. destruct (rx_subscribe_port r p timeout max mem) as [r' [| |] ]; try (eexists _, _, _; reflexivity). destruct (bx_filters_ok (fst (rx_filters r')) (snd (rx_filters r')) alloc x Hb) as (bk & Ef & _). rewrite Ef. eexists _, _, _; reflexivity. }
  assert (U : forall p, exists r' x', receiver_unsubscribe p alloc r x = Ok (r', x')).
  { intro p. unfold receiver_unsubscribe. destruct (bx_filters_ok (fst (rx_filters (rx_unsubscribe r p))) (snd (rx_filters (rx_unsubscribe r p))) alloc x Hb) as (bk & Ef & _). rewrite Ef. eexists _, _; reflexivity. }
  assert (Pu : forall t, can_header_ok (t_header t) -> exists z' a b, perform mem alloc [CPush t] (CanNode n q r x k) = Ok (z', a, b)).
  { intros t Hh. destruct (push_total cap q l t Hl Hh) as (q' & a & E). cbn [perform]. rewrite E. eexists _, _, _; reflexivity. }
  assert (No : exists z' a b, perform mem alloc [] (CanNode n q r x k) = Ok (z', a, b)) by (eexists _, _, _; reflexivity).
  assert (Sc : forall p t m, exists z' a b, perform mem alloc [sub_call p t m] (CanNode n q r x k) = Ok (z', a, b)) by (intros p t m; destruct (S p t m) as (r' & x' & a & E); destruct p; cbn [perform sub_call]; rewrite E; eexists _, _, _; reflexivity).
  assert (Uc : forall p, exists z' a b, perform mem alloc [unsub_call p] (CanNode n q r x k) = Ok (z', a, b)) by (intros p; destruct (U p) as (r' & x' & E); destruct p; cbn [perform unsub_call]; rewrite E; eexists _, _, _; reflexivity).
  destruct w; cbn [calls_of] in Hc; try (destruct Hc as [->|(t & ->)]; [exact No|apply Pu, Ht; left; reflexivity]).
  - destruct Hc as [(-> & _)|(-> & _)]; [exact No|apply Sc].
  - destruct Hc as (-> & _). apply Sc.
  - subst calls. apply Uc.
  - destruct Hc as (-> & _). apply Sc.
  - subst calls. apply Uc.
  - subst calls. eexists _, _, _; reflexivity.
Qed.

(** * Reception *)

Definition long_data (data : list N) : Prop := bytes_ok data /\ forall body toggle tid, tid <= 31 -> data = body ++ [tail_byte true false toggle tid] -> (2 <= length body)%nat.
Lemma long_start f mem : long_data (f_data f) -> start_long (CFrame f mem).
Proof. intros (_ & H) toggle tid (Ht & body & E). unfold frame_body. rewrite E, removelast_last. exact (H body toggle tid Ht E). Qed.
Lemma segmented_long t fr pad cid f : h_tid (t_header t) <= 31 -> bytes_ok (t_payload t) -> segmented 8 t fr pad cid -> In f fr -> long_data (f_data f).
Proof.
  intros Ht Hb Hseg Hf. split; [exact (segmented_bytes _ _ _ _ _ Ht Hb Hseg Hf)|]. destruct Hseg as (chunks & _ & _ & Hlen & L & H). intros body toggle tid Hi E.
  apply In_nth_error in Hf. destruct Hf as (i & Hn). destruct (nth_error chunks i) as [c|] eqn:En; [|apply nth_error_None in En; assert (K : nth_error fr i <> None) by congruence; apply nth_error_Some in K; lia].
  rewrite (H i c En) in Hn. injection Hn as <-. cbn [f_data] in E. apply app_inj_tail in E. destruct E as (<- & E). apply (f_equal parse_tail) in E. rewrite !parse_tail_byte in E by assumption. injection E as _ E _ _. assert (Hne : (S i <> length chunks)%nat) by (intro X; rewrite <- X, Nat.eqb_refl in E; discriminate E).
  destruct (Hlen i c En) as (_ & K & _). assert (Hi' : (i < length chunks)%nat) by (apply nth_error_Some; congruence). rewrite K by lia. lia.
Qed.
Lemma from_bus_less now fifo : forall rest r, receive_from_bus now fifo = (rest, r) -> (length rest <= length fifo)%nat /\ forall f, r = RxFrame f -> (length rest < length fifo)%nat.
Proof.
  induction fifo as [|a fifo IH]; intros rest r E; cbn [receive_from_bus] in E; [injection E as <- <-; split; [lia|discriminate]|]. destruct a as [b|].
  - destruct (of_bxcan b now) as [f|].
    + injection E as <- <-. cbn [length]. split; [lia|]. intros f' _. lia.
    + destruct (IH _ _ E) as (I1 & I2). cbn [length]. split; [lia|]. intros f Ef. specialize (I2 f Ef). lia.
  - injection E as <- <-. cbn [length]. split; [lia|discriminate].
Qed.
Definition hist_long (h : list (can_op * can_out)) : Prop := forall op o, In (op, o) h -> start_long op.
Lemma receive_total id clock mem fuel : (forall k, clock k < 2 ^ 32) -> forall k r x h, input_p long_data x -> can_hist id h r -> hist_long h -> (length (d_fifo (bx_can x)) + length (bx_loopback x) < fuel)%nat ->
  exists r' x' o, bx_pnp_receive clock mem fuel k r x = Ok (r', x', o).
Proof.
  intro Hc. induction fuel as [|fuel IH]; intros k r x h Hi Hh Ha Hl; [lia|]. cbn [bx_pnp_receive]. destruct (bx_receive (clock k) x) as [x1 g] eqn:Eb.
  assert (Es : bx_step (OpReceive (clock k)) x = Ok (x1, OutRx g)) by (cbn [bx_step]; rewrite Eb; reflexivity).
  destruct (step_input long_data (OpReceive (clock k)) x x1 (OutRx g) (Hc k) Hi Es) as (Hi1 & Hfr).
  destruct g as [f| |]; [|eexists _, _, _; reflexivity..]. cbn [received] in Hfr. inversion Hfr as [|? ? Hf _]; subst. destruct Hf as (F1 & F2 & F3). assert (Fo : frame_ok f) by (split; [exact F1|]; split; [exact F2|exact (proj1 F3)]).
  pose proof (C23_no_panic_partial id h r (CFrame f (mem k)) Hh Fo Ha (long_start f _ F3)) as Hn. destruct (accept_frame r (mem k) f) as [ [r1 o1]|] eqn:Ea; [|cbn [can_step] in Hn; rewrite Ea in Hn; congruence].
  assert (Hh1 : can_hist id ((CFrame f (mem k), CGot o1) :: h) r1) by (eapply CanRxSpec.ch_step; [exact Hh|exact Fo|cbn [can_step]; rewrite Ea; reflexivity]).
  assert (Ha1 : hist_long ((CFrame f (mem k), CGot o1) :: h)). { intros op o [Eo|Hin]; [injection Eo as <- _; exact (long_start f _ F3)|exact (Ha op o Hin)]. }
  assert (Hl1 : (length (d_fifo (bx_can x1)) + length (bx_loopback x1) < fuel)%nat).
  { unfold bx_receive in Eb. destruct (receive_from_bus (clock k) (d_fifo (bx_can x))) as [fifo r0] eqn:Er. destruct (from_bus_less _ _ _ _ Er) as (L1 & L2). destruct r0 as [f0| |].
    - injection Eb as <- <-. specialize (L2 f0 eq_refl). cbn [bx_can d_fifo bx_loopback]. lia.
    - destruct (bx_loopback x) as [|g l]; [discriminate Eb|]. injection Eb as <- <-. cbn [bx_can d_fifo bx_loopback length] in *. lia.
    - discriminate Eb. }
  destruct o1 as [|t|]; [exact (IH (S k) r1 x1 _ Hi1 Hh1 Ha1 Hl1)|eexists _, _, _; reflexivity..].
Qed.

(** * Whole nodes *)

Section Total.
  Context (cap banks : nat) (script : nat -> N * list nat) (k : tracker_kind) (P R : nat) (id : option N).
  Context (Hbanks : (1 <= banks)%nat) (Hs : forall i, fst (script i) < 2 ^ 32) (Hk : kind_ok TransportCan k) (Hid : forall j, id = Some j -> j <= 127).
  Notation start := (can_node_new cap banks k P R id).
  Definition sendable (i : N) (data : list N) : Prop := i < 2 ^ 29 /\ long_data data.

  Lemma path_sendable h z : node_path script start h z -> exists l, holds cap (cn_queue z) l /\ Forall (held sendable) l /\ boxes sendable (bx_can (cn_driver z)).
  Proof.
    intro H. apply (path_held _ _ _ _ _ _ _ _ _ sendable Hs Hk Hid H). intros o calls out t fr f Ho Hc Hb Hfr Hf. destruct (frames_id t fr f Hfr Hf) as (_ & _ & Hlt & _). split; [exact Hlt|].
    destruct Hfr as (Hh' & cid & _ & _ & _ & Hseg & _). exact (segmented_long t fr 0 cid f ltac:(apply Hh') Hb Hseg Hf).
  Qed.
  Lemma path_receiver h z : node_path script start h z -> (forall b res, In (EvArrive b, res) h -> starts_long b) -> exists hr, can_hist id hr (cn_receiver z) /\ hist_long hr /\ input_p long_data (cn_driver z).
  Proof.
    induction 1 as [|h z ev z' res H IH Hf E]; intro Ha.
    - exists []. split; [constructor|]. split; [intros op o []|]. split; [constructor|intros b data []].
    - destruct (IH ltac:(intros b r Hi; apply (Ha b r); right; exact Hi)) as (hr & I1 & I2 & I3). destruct (path_sendable _ _ H) as (l & L1 & L2 & L3).
      destruct (step_parts script cap sendable ev z z' res l Hf E L1 L2 L3) as (ops & outs & rops & couts & R1 & R2 & R3 & R4 & R5 & R6 & R7).
      assert (Hio : Forall (io_p long_data) ops).
      { apply Forall_forall. intros o Ho. rewrite Forall_forall in R6. specialize (R6 o Ho). destruct o as [now f|now|lo ps alloc| |m|b|]; cbn [step_op io_p] in *; try exact I; try exact R6.
        - destruct R6 as ((S1 & S2) & j & ->). split; [apply Hs|]. split; assumption.
        - assert (Hb : In b (on_bus ops)) by (unfold on_bus; apply in_flat_map; exists (OpArrive b); split; [exact Ho|left; reflexivity]). rewrite R4 in Hb. destruct ev; try (exfalso; exact Hb). destruct Hb as [->|[] ].
          intros data Ed. split; [exact (R6 data Ed)|]. intros body toggle tid Ht Eb. exact (Ha b res (or_introl eq_refl) data body toggle tid Ed Ht Eb). }
      destruct (run_input long_data _ Hio _ _ _ I3 R1) as (I3' & Hfr). rewrite <- R3 in Hfr.
      assert (Hok : Forall can_op_ok rops) by (apply given_ok; eapply Forall_impl; [|exact Hfr]; intros f (F1 & F2 & F3); split; [exact F1|]; split; [exact F2|exact (proj1 F3)]).
      exists (rev (combine rops couts) ++ hr). split; [exact (CanRxProps.run_hist id rops hr _ _ _ I1 Hok R2)|]. split; [|exact I3'].
      intros op o Hi. apply in_app_iff in Hi. destruct Hi as [Hi|Hi]; [|exact (I2 op o Hi)]. apply in_rev in Hi. apply in_combine_l in Hi. destruct op as [f mem|p t m mem|p|i]; try exact I. apply long_start. rewrite Forall_forall in Hfr.
      refine (proj2 (proj2 (Hfr f _))). apply in_flat_map. exists (CFrame f mem). split; [exact Hi|left; reflexivity].
  Qed.

  Theorem step_total h z ev : node_path script start h z -> (forall b res, In (EvArrive b, res) h -> starts_long b) -> event_fine ev -> event_allowed cap id (node_calls h) ev -> exists z' res, can_node_step script ev z = Ok (z', res).
  Proof.
    intros H Ha Hf Hal. destruct (path_sendable _ _ H) as (l & L1 & _ & _). destruct (path_hist _ _ _ _ _ _ _ _ _ H) as (Hh & Hfine). pose proof (path_filtered _ _ _ _ _ _ _ _ _ Hbanks Hs Hk Hid H) as F.
    destruct ev as [o mem alloc|fuel|clock mem|m|b|].
    - destruct Hf as (Hf & _). cbn [event_allowed] in Hal. destruct (core_step (cn_core z) o) as [ [n1 calls] r1] eqn:E0. pose proof (allowed_ok _ _ _ _ _ _ _ _ _ _ Hk Hh Hf Hal E0) as Hr. pose proof (step_effect _ _ _ _ _ _ _ _ _ _ Hk Hh Hf E0 Hr) as He.
      destruct (perform_total mem alloc cap l o calls r1 z (core_calls _ _ _ _ _ E0) (fun t Hi => proj1 (effect_fine _ _ _ _ _ t Hid Hfine Hf He Hi)) L1 (fi_banked _ _ _ F)) as (z1 & a & b & Ep).
      destruct (core_step (cn_core z) (with_answers a b o)) as [ [n2 calls2] r2] eqn:E2. assert (Hal2 : call_allowed id (node_calls h) (with_answers a b o)) by (destruct o; exact Hal).
      pose proof (allowed_ok _ _ _ _ _ _ _ _ _ _ Hk Hh (answers_fine a b o Hf) Hal2 E2) as Hr2. destruct z as [n q r x j]. cbn [cn_core] in *. unfold can_node_step. rewrite E0, Ep, E2. destruct r2; try (eexists _, _; reflexivity). congruence.
    - cbn [event_allowed] in Hal. destruct (path_station _ _ _ _ _ _ _ _ _ H) as (ts & S & _). destruct (station_sender _ _ _ _ _ _ _ _ _ _ _ _ Hk Hid S) as (S1 & _). destruct (sender_system _ _ _ _ _ _ Hs S1) as (frs & _ & F2).
      destruct (C124_flush_ends _ _ _ _ _ _ fuel Hs F2 Hal) as (q' & w' & r & E & _). pose proof (system_flush _ _ _ _ _ _ _ _ _ _ F2 E) as F3. destruct (system_inv _ _ _ _ _ _ Hs F3) as (l' & _ & x & j & os & out & lost & gone & Ew & _). subst w'.
      destruct z as [n q rx x0 k0]. cbn [cn_queue cn_driver cn_reads] in *. unfold can_node_step. rewrite E. eexists _, _; reflexivity.
    - destruct (path_receiver _ _ H Ha) as (hr & I1 & I2 & I3). destruct z as [n q r x j]. cbn [cn_receiver cn_driver] in *. unfold can_node_step.
      destruct (receive_total id clock mem (S (length (d_fifo (bx_can x)) + length (bx_loopback x))) Hf 0%nat r x hr I3 I1 I2 ltac:(lia)) as (r' & x' & a & E). rewrite E. eexists _, _; reflexivity.
    - destruct z. eexists _, _; reflexivity.
    - destruct z. eexists _, _; reflexivity.
    - destruct z. eexists _, _; reflexivity.
  Qed.
End Total.
