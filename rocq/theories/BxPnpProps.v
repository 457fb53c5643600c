(** Property theorems for the plug-and-play client for bxCAN devices (C134). *)
From Verif Require Import Base BitLemmas CoreModel CanIdModel CanSpec CanIdProofs CanTxModel CanTxSpec CanQueueModel CanQueueSpec CanRxModel CanRxSpec CanRxProofs CanRxProps CanIdProps
  BxModel BxSpec BxProofs BusSpec BusProofs BusProps NodeModel EncModel GenModel DataTypes BasicModel BasicSpec PnpModel PnpSpec PnpProofs PnpProps BxPnpModel BxPnpSpec BxPnpProofs.

Ltac Zify.zify_post_hook ::= Z.div_mod_to_equations.

(** * C134: requests of the client *)

Lemma history_queue banks u es c outs : pnp_history banks u es c outs -> queue_inv (existsb is_request es) c /\ bp_unique c = u.
Proof.
  intros (Hb & U & Hok & mem & alloc & c0 & En & Er). destruct (new_state banks u mem alloc c0 Hb En) as (N1 & N2 & N3 & N4 & _). assert (I0 : queue_inv false c0) by (split; [rewrite N3; reflexivity|auto]).
  destruct (run_queue es c0 c outs false ltac:(rewrite N1; exact U) Hok I0 Er) as (K1 & K2). split; [exact K1|congruence].
Qed.

(** The first request does not fail: its frame is put into the queue.  Missing: it is sent. *)
Theorem C134_request_partial : forall banks u es c outs now alloc,
  pnp_history banks u es c outs -> existsb is_request es = false -> now < 2 ^ 32 ->
  exists c' f, pnp_step (EPublish now alloc) c = Ok (c', None) /\ bp_queue c' = Some f /\ request_frame u now f.
Proof.
  intros banks u es c outs now alloc H Hno Hn. destruct (history_queue _ _ _ _ _ H) as (K1 & K2). rewrite Hno in K1. destruct K1 as (_ & J1 & J2 & J3). destruct H as (_ & U & _).
  destruct (publish_ok now alloc c ltac:(rewrite K2; exact U) Hn J2 J3 J1) as (c' & f & E & Eq & Ef). exists c', f. cbn [pnp_step]. rewrite E, K2 in *. auto.
Qed.
Print Assumptions C134_request_partial.

(** The code violates the property.  Whatever happens, no frame is given to the device: nothing is ever sent, and nothing waits to be sent. *)
Theorem C134_silent_refuted : forall banks u es c outs,
  pnp_history banks u es c outs -> sent (bx_pnp_free c) = [] /\ BxSpec.pending (bx_pnp_free c) = [] /\ aborted (bx_pnp_free c) = [].
Proof.
  intros banks u es c outs (Hb & U & Hok & mem & alloc & c0 & En & Er). destruct (new_state banks u mem alloc c0 Hb En) as (N1 & N2 & N3 & N4 & Q & Out & _).
  destruct (run_trace False es c0 c outs Hok (fun f => match f with end) Q Out Er) as (_ & _ & _ & _ & _ & _ & _ & _ & _ & _ & _ & _ & _ & O1 & O2).
  unfold sent, BxSpec.pending, aborted, bx_pnp_free. rewrite O1, O2. repeat split.
Qed.
Print Assumptions C134_silent_refuted.
(** The code violates the property.  The frame of the first request stays in the queue for ever, so every other request panics. *)
Theorem C134_twice_refuted : forall banks u es c outs now alloc,
  pnp_history banks u es c outs -> existsb is_request es = true -> pnp_step (EPublish now alloc) c = Panic.
Proof.
  intros banks u es c outs now alloc H Hyes. destruct (history_queue _ _ _ _ _ H) as (K1 & K2). rewrite Hyes in K1. destruct K1 as (I1 & g & Eg). destruct H as (_ & U & _).
  cbn [pnp_step]. rewrite (publish_full now alloc c g ltac:(rewrite K2; exact U) I1 Eg). reflexivity.
Qed.
Print Assumptions C134_twice_refuted.

(** * C134: answers *)

(** The values returned are exactly the node IDs offered to this node by the transfers that a receiver, subscribed to the subject with up to nine bytes, delivers when it is given the frames
    that the driver has received; the filters of the driver are set for the subject, and it is not used for anything else. *)
Theorem C134_answers : forall banks u es c outs,
  pnp_history banks u es c outs ->
  exists mem alloc ops bouts rops couts,
    Forall listens ops /\ on_bus ops = arrivals es /\ bx_run (OpFilters None [pnp_port] alloc :: ops) (bx_new banks) = Ok (bp_driver c, bouts) /\
    Forall listening rops /\ Forall can_op_ok rops /\ given_frames rops = flat_map received bouts /\ can_run (rx_new None) (CSub pnp_port 1000000 9 mem :: rops) = Ok (bp_receiver c, CSubbed SubscribeOk :: couts) /\
    offered u (transfers couts) (returned outs).
Proof.
  intros banks u es c outs (Hb & U & Hok & mem & alloc & c0 & En & Er). destruct (new_state banks u mem alloc c0 Hb En) as (N1 & N2 & N3 & N4 & Q & Out & R0 & B0).
  destruct (run_trace False es c0 c outs Hok (fun f => match f with end) Q Out Er) as (ops & bouts & rops & couts & E1 & E2 & E3 & E4 & E5 & E6 & E7 & _ & _ & _).
  assert (R1 : can_run (rx_new None) (CSub pnp_port 1000000 9 mem :: rops) = Ok (bp_receiver c, CSubbed SubscribeOk :: couts)) by exact (can_run_app _ _ _ _ _ _ _ R0 E2).
  assert (Hops : Forall can_op_ok rops) by (eapply Forall_impl; [|exact E5]; intros a H; apply H).
  exists mem, alloc, ops, ((OpFilters None [pnp_port] alloc, OutNothing) :: bouts), rops, couts. split; [exact E4|]. split; [exact E6|].
  split; [change (OpFilters None [pnp_port] alloc :: ops) with ([OpFilters None [pnp_port] alloc] ++ ops); rewrite bx_run_app, B0, E1; reflexivity|].
  split; [eapply Forall_impl; [|exact E5]; intros a H; apply H|]. split; [exact Hops|]. split; [exact E3|]. split; [exact R1|].
  rewrite E7, N1. apply ids_offered. exact (run_bytes None (CSub pnp_port 1000000 9 mem :: rops) [] (rx_new None) _ (CSubbed SubscribeOk :: couts) (ch_new None) (Forall_cons (P := can_op_ok) (CSub pnp_port 1000000 9 mem) I Hops) R1).
Qed.
Print Assumptions C134_answers.

Lemma message_no_dest p s t : comes_from (PMsg p) s t = true -> h_dest (t_header t) = None.
Proof. unfold comes_from. destruct (t_header t); cbn [h_port port_eqb]; [reflexivity|discriminate..]. Qed.
Lemma offered_in u ts ids t id : offered u ts ids -> In t ts -> offers TransportCan V1 u (t_payload t) id -> In id ids.
Proof.
  induction 1 as [|t' ts id' ids H1 H IH|t' ts ids H1 H IH]; intros Hin Ho; [destruct Hin| |].
  - destruct Hin as [->|Hin]; [left|right; exact (IH Hin Ho)]. destruct Ho as (w & R & W & _), H1 as (w' & R' & W' & _). rewrite R in R'. congruence.
  - destruct Hin as [->|Hin]; [destruct (H1 id Ho)|exact (IH Hin Ho)].
Qed.

(** From the allocator to the node: an allocator with a bxCAN driver sends answers (and other transfers, as in C126).  All its frames on the subject have left the device and are on the bus of
    the client, and the client has handled all frames that have arrived; frames of other nodes may arrive at any time.  Then each node ID that was offered to the client is returned.
    Missing: answers of different priorities, as in C126. *)
Theorem C134_allocated_partial : forall cap nb script ts q x k s prio banks u es c outs t id,
  (forall j, fst (script j) < 2 ^ 32) -> sender cap nb script ts q (Ok x, k) ->
  Forall (fun t => h_prio (t_header t) = prio /\ bytes_ok (t_payload t) /\ forall j, t_lt (h_ts (t_header t)) (fst (script j)) = false) (filter (comes_from pnp_port s) ts) ->
  consecutive (map (fun t => h_tid (t_header t)) (filter (comes_from pnp_port s) ts)) ->
  Forall (fun b => wire_by pnp_port s b = false) (BxSpec.pending (bx_can x)) -> Forall (fun f => sent_by pnp_port s f = false) (drain (S cap) q) ->
  pnp_history banks u es c outs -> Forall enough_memory es ->
  filter (wire_by pnp_port s) (arrivals es) = filter (wire_by pnp_port s) (sent (bx_can x)) ->
  Forall (fun b => wire_by pnp_port s b = false) (waiting (bx_pnp_free c)) ->
  In t ts -> comes_from pnp_port s t = true -> offers TransportCan V1 u (firstn 9 (t_payload t)) id -> In id (returned outs).
Proof.
  intros cap nb script ts q x k s prio banks u es c outs t id Hs Hsend Hmine Hcons Hpend Hq (Hb & U & Hok & mem & alloc & c0 & En & Er) Hmem Hbus Hwait Hin Hfrom Hoff.
  destruct (new_state banks u mem alloc c0 Hb En) as (N1 & N2 & N3 & N4 & Q & Out & R0 & B0).
  destruct (run_trace True es c0 c outs Hok (fun _ => Hmem) Q Out Er) as (ops & bouts & rops & couts & E1 & E2 & E3 & E4 & E5 & E6 & E7 & _ & _ & _).
  assert (Hops : Forall can_op_ok rops) by (eapply Forall_impl; [|exact E5]; intros a H; apply H).
  assert (Hhist : can_hist None [(CSub pnp_port 1000000 9 mem, CSubbed SubscribeOk)] (bp_receiver c0)).
  { apply (run_hist None [CSub pnp_port 1000000 9 mem] [] (rx_new None) (bp_receiver c0) [CSubbed SubscribeOk] (ch_new None)); [constructor; [exact I|constructor]|exact R0]. }
  assert (F : Forall2 (received_as 9) (filter (comes_from pnp_port s) ts) (flat_map (delivered pnp_port s) couts)).
  { apply (C126_delivered_partial cap nb script ts q x k pnp_port s prio None banks (OpFilters None [pnp_port] alloc :: ops) (bp_driver c) ((OpFilters None [pnp_port] alloc, OutNothing) :: bouts)
      None [(CSub pnp_port 1000000 9 mem, CSubbed SubscribeOk)] (bp_receiver c0) 1000000 9 rops (bp_receiver c) couts); try assumption.
    - apply Forall_forall. intros t' Ht. rewrite Forall_forall in Hmine. destruct (Hmine t' Ht) as (H1 & H2 & H3). apply filter_In in Ht as (_ & Ht). split; [exact H1|]. split; [exact (message_no_dest _ _ _ Ht)|]. auto.
    - constructor; [split; [discriminate|constructor; [cbn; lia|constructor] ]|]. eapply Forall_impl; [|exact E4]. intros a Ha. destruct a; try exact I; destruct Ha.
    - constructor; [split; [reflexivity|left; reflexivity]|]. eapply Forall_impl; [|exact E4]. intros a Ha. destruct a; try exact I; destruct Ha.
    - eexists _, _. split; [reflexivity|exact I].
    - constructor; [exact I|]. eapply Forall_impl; [|exact E4]. intros a Ha. destruct a; try exact I; destruct Ha.
    - unfold on_bus in *. cbn [flat_map app]. rewrite E6. exact Hbus.
    - change (OpFilters None [pnp_port] alloc :: ops) with ([OpFilters None [pnp_port] alloc] ++ ops). rewrite bx_run_app, B0, E1. reflexivity.
    - reflexivity.
    - discriminate.
    - intros t' _. split; [intros g []|discriminate].
    - eapply Forall_impl; [|exact E5]. intros a (A1 & _ & A3). destruct a as [f m|? ? ? ?|?|?]; try destruct A1. cbn [leaves]. exact (A3 I f m eq_refl). }
  assert (Hd : exists d, In d (flat_map (delivered pnp_port s) couts) /\ received_as 9 t d).
  { assert (Ht : In t (filter (comes_from pnp_port s) ts)) by (apply filter_In; split; assumption). clear - F Ht. induction F as [|a b l m Hab F IH]; [destruct Ht|]. destruct Ht as [<-|Ht]; [exists b; split; [left; reflexivity|exact Hab]|].
    destruct (IH Ht) as (d & H1 & H2). exists d. split; [right; exact H1|exact H2]. }
  destruct Hd as (d & Hd1 & _ & _ & Hd2). rewrite E7, N1.
  assert (R1 : can_run (rx_new None) (CSub pnp_port 1000000 9 mem :: rops) = Ok (bp_receiver c, CSubbed SubscribeOk :: couts)) by exact (can_run_app _ _ _ _ _ _ _ R0 E2).
  apply (offered_in u (transfers couts) (ids_in u (transfers couts)) d id).
  - apply ids_offered. exact (run_bytes None (CSub pnp_port 1000000 9 mem :: rops) [] (rx_new None) _ (CSubbed SubscribeOk :: couts) (ch_new None) (Forall_cons (P := can_op_ok) (CSub pnp_port 1000000 9 mem) I Hops) R1).
  - apply in_flat_map in Hd1 as (o & Ho & Hd1). apply in_flat_map. exists o. split; [exact Ho|]. destruct o as [ [|t'|]| |]; try destruct Hd1. cbn [delivered] in Hd1. destruct (comes_from pnp_port s t'); [exact Hd1|destruct Hd1].
  - rewrite Hd2. exact Hoff.
Qed.
Print Assumptions C134_allocated_partial.

(** * C134: panics *)

(** If there is at most one request, and the first frames of transfers of several frames are long enough, nothing panics.  Missing: other requests (see [C134_twice_refuted]) and frames
    (see [C134_short_refuted]). *)
Theorem C134_no_panic_partial : forall banks u mem alloc es,
  (1 <= banks)%nat -> unique_id_ok u -> Forall event_ok es -> (forall b, In (EArrive b) es -> first_long b) -> (length (filter is_request es) <= 1)%nat ->
  bx_pnp_new banks u mem alloc <> Panic /\ forall c0, bx_pnp_new banks u mem alloc = Ok (Some c0) -> exists c outs, pnp_run es c0 = Ok (c, outs).
Proof.
  intros banks u mem alloc es Hb U Hok Hl Hn. split.
  - unfold bx_pnp_new. destruct (rx_subscribe_port _ _ _ _ _) as [r [| |] ]; try discriminate.
    destruct (bx_filters_ok (fst (rx_filters r)) (snd (rx_filters r)) alloc (bx_new banks)) as (bk & Ef & _); [unfold bx_new; cbn [bx_can d_banks]; rewrite repeat_length; exact Hb|]. rewrite Ef. discriminate.
  - intros c0 En. destruct (new_state banks u mem alloc c0 Hb En) as (N1 & N2 & N3 & N4 & Q & Out & R0 & B0).
    assert (Hhist : can_hist None [(CSub pnp_port 1000000 9 mem, CSubbed SubscribeOk)] (bp_receiver c0)).
    { apply (run_hist None [CSub pnp_port 1000000 9 mem] [] (rx_new None) (bp_receiver c0) [CSubbed SubscribeOk] (ch_new None)); [constructor; [exact I|constructor]|exact R0]. }
    apply (run_total es c0 [(CSub pnp_port 1000000 9 mem, CSubbed SubscribeOk)] false Hok); try assumption.
    + apply Forall_forall. intros e He. destruct e; try exact I. apply Hl, He.
    + rewrite N1. exact U.
    + assert (E : d_fifo (bx_can (bp_driver c0)) = []); [|rewrite E; constructor]. unfold bx_pnp_new in En. destruct (rx_subscribe_port _ _ _ _ _) as [r [| |] ]; try discriminate.
      destruct (bx_filters_ok (fst (rx_filters r)) (snd (rx_filters r)) alloc (bx_new banks)) as (bk & Ef & _); [unfold bx_new; cbn [bx_can d_banks]; rewrite repeat_length; exact Hb|]. rewrite Ef in En. injection En as <-. reflexivity.
    + intros op o [Eo|[] ]. injection Eo as <- _. exact I.
    + split; [rewrite N3; reflexivity|auto].
    + rewrite Nat.add_0_r. exact Hn.
Qed.
Print Assumptions C134_no_panic_partial.

(** The code violates the property: two frames of another node, each without data except for the tail byte, and [handle_incoming_frames] panics. *)
Theorem C134_short_refuted : exists banks u c0 es,
  (1 <= banks)%nat /\ unique_id_ok u /\ Forall event_ok es /\ bx_pnp_new banks u true (fun _ => true) = Ok (Some c0) /\ existsb is_request es = false /\ pnp_run es c0 = Panic.
Proof.
  exists 14%nat, (u_ex 3). eexists. exists [EArrive (BxFrame true 0x107fe607 (Some [0xa0])); EArrive (BxFrame true 0x107fe607 (Some [0x40])); EHandle (fun _ => 5) (fun _ => true)].
  split; [lia|]. split; [split; [reflexivity|repeat constructor]|]. split; [|split; [vm_compute; reflexivity|split; [reflexivity|vm_compute; reflexivity] ] ].
  constructor; [intros data E; injection E as <-; repeat constructor|]. constructor; [intros data E; injection E as <-; repeat constructor|]. constructor; [intro k; reflexivity|constructor].
Qed.
Print Assumptions C134_short_refuted.

(** * Witnesses *)

(** Node 5 offers node ID 42 to the node with the unique ID [u_ex 3] *)
Definition pnp_hash : N := Eval vm_compute in crc64we (u_ex 3) mod 2 ^ 48.
Definition pnp_offer : transfer := Transfer (HMsg (MsgH 100 0 4 8166 (Some 5))) false (map (fun i => (pnp_hash / 2 ^ (8 * i)) mod 256) [0; 1; 2; 3; 4; 5] ++ [1; 42; 0]).
Definition pnp_state0 := push_state pnp_offer (push_state bus_o (bus_new 8)).
Definition pnp_state1 := mailbox_sent 1 (mailbox_sent 0 (flushed pnp_state0)).
Definition pnp_end := mailbox_sent 1 (mailbox_sent 0 (flushed (mailbox_sent 1 (mailbox_sent 0 (flushed pnp_state1))))).
Lemma pnp_sender : reached 8 [bus_o; pnp_offer] pnp_end.
Proof.
  unfold pnp_end, pnp_state1. do 3 apply sent_sender, sent_sender, flushed_sender. unfold pnp_state0.
  apply (pushed_sender 8 [bus_o]); [|apply header_ok_msg; vm_compute; congruence|vm_compute; reflexivity].
  apply (pushed_sender 8 []); [apply sender_new|apply header_ok_msg; vm_compute; congruence|vm_compute; reflexivity].
Qed.
Definition pnp_wire : list bx_frame := match pnp_end with (_, (Ok x, _)) => sent (bx_can x) | _ => [] end.
Definition pnp_events : list pnp_event :=
  [EPublish 10 true; ESend 0] ++ map EArrive pnp_wire ++ [EArrive (BxFrame true 0x107fe608 (Some [1; 2; 0xe0])); EOverrun; EHandle (fun k => if (k =? 0)%nat then 50 else 51) (fun _ => true); EHandle (fun _ => 60) (fun _ => true)].
Lemma first_long_check b : match b_data b with Some data => (2 <? length data)%nat || (192 <=? last data 0) || (last data 0 <? 128) | None => true end = true -> first_long b.
Proof.
  intros H data toggle tid E (Ht & body & Hb). cbn [f_data] in Hb. rewrite E in H. subst data. rewrite removelast_last. rewrite last_last, app_length in H. cbn [length] in H.
  assert (T : 128 <= tail_byte true false toggle tid < 192) by (unfold tail_byte; destruct toggle; lia).
  destruct (Nat.ltb_spec 2 (length body + 1)); [lia|]. destruct (N.leb_spec 192 (tail_byte true false toggle tid)); [lia|]. destruct (N.ltb_spec (tail_byte true false toggle tid) 128); [lia|]. discriminate.
Qed.
Example C134_witness : exists c outs,
  pnp_history 14 (u_ex 3) pnp_events c outs /\ returned outs = [42] /\ existsb is_request pnp_events = true /\ Forall enough_memory pnp_events /\
  offers TransportCan V1 (u_ex 3) (firstn 9 (t_payload pnp_offer)) 42 /\ comes_from pnp_port 5 pnp_offer = true /\
  filter (wire_by pnp_port 5) (arrivals pnp_events) = filter (wire_by pnp_port 5) pnp_wire /\ length (filter (wire_by pnp_port 5) pnp_wire) = 2%nat /\ Forall (fun b => wire_by pnp_port 5 b = false) (waiting (bx_pnp_free c)) /\
  (exists q x k, pnp_end = (q, (Ok x, k)) /\ sender 8 14 bus_script [bus_o; pnp_offer] q (Ok x, k) /\ BxSpec.pending (bx_can x) = [] /\ drain 9 q = []) /\
  (forall b, In (EArrive b) pnp_events -> first_long b) /\ (length (filter is_request pnp_events) <= 1)%nat.
Proof.
  assert (E : exists c outs, (exists mem alloc c0, bx_pnp_new 14 (u_ex 3) mem alloc = Ok (Some c0) /\ pnp_run pnp_events c0 = Ok (c, outs)) /\ returned outs = [42] /\ waiting (bx_pnp_free c) = []).
  { eexists _, _. split; [exists true, (fun _ => true); eexists; split; [vm_compute; reflexivity|vm_compute; reflexivity]|]. split; vm_compute; reflexivity. }
  destruct E as (c & outs & E1 & E2 & E3). exists c, outs.
  split. { split; [lia|]. split; [split; [reflexivity|repeat constructor]|]. split; [|exact E1]. apply Forall_forall. intros e He.
    assert (A : forallb (fun e => match e with EPublish now _ => now <? 2 ^ 32 | EArrive b => match b_data b with Some data => forallb (fun x => x <? 256) data | None => true end | _ => true end) pnp_events = true) by (vm_compute; reflexivity).
    rewrite forallb_forall in A. specialize (A e He). destruct e as [now a|clock mem|m|b|]; cbn [event_ok]; [apply N.ltb_lt, A| |exact I| |exact I].
    - apply in_app_or in He. destruct He as [ [He|[He|[] ] ]|He]; [discriminate He|discriminate He|]. apply in_app_or in He. destruct He as [He|He]; [apply (proj1 (in_map_iff EArrive pnp_wire _)) in He; destruct He as (? & He & _); discriminate He|].
      destruct He as [He|[He|[He|[He|[] ] ] ] ]; [discriminate He|discriminate He|..]; injection He as <- _; intro k; [destruct (k =? 0)%nat|]; reflexivity.
    - intros data Ed. rewrite Ed in A. apply Forall_forall. rewrite forallb_forall in A. intros x Hx. apply N.ltb_lt, A, Hx. }
  split; [exact E2|]. split; [reflexivity|]. split.
  { apply Forall_forall. intros e He. apply in_app_or in He. destruct He as [ [<-|[<-|[] ] ]|He]; [exact I..|]. apply in_app_or in He. destruct He as [He|He]; [apply (proj1 (in_map_iff EArrive pnp_wire _)) in He; destruct He as (? & <- & _); exact I|].
    destruct He as [<-|[<-|[<-|[<-|[] ] ] ] ]; try exact I; intro k; reflexivity. }
  split; [exists (Hash pnp_hash); split; [vm_compute; reflexivity|split; [vm_compute; reflexivity|vm_compute; discriminate] ]|].
  split; [vm_compute; reflexivity|]. split; [vm_compute; reflexivity|]. split; [vm_compute; reflexivity|]. split; [rewrite E3; constructor|]. split.
  { pose proof pnp_sender as H. assert (E : let (q, w) := pnp_end in let (d, k) := w in match d with Ok x => (BxSpec.pending (bx_can x), drain 9 q, true) | Panic => ([], [], false) end = ([], [], true)) by (vm_compute; reflexivity).
    revert H E. generalize pnp_end. intros [q [ [x|] k] ]; [|discriminate]. intros H E. exists q, x, k. split; [reflexivity|]. split; [exact H|]. split; [exact (f_equal (fun z => fst (fst z)) E)|exact (f_equal (fun z => snd (fst z)) E)]. }
  split; [|vm_compute; lia]. intros b Hb. apply first_long_check.
  assert (A : forallb (fun e => match e with EArrive b => match b_data b with Some data => (2 <? length data)%nat || (192 <=? last data 0) || (last data 0 <? 128) | None => true end | _ => true end) pnp_events = true) by (vm_compute; reflexivity).
  rewrite forallb_forall in A. exact (A _ Hb).
Qed.
