(** Property theorems for nodes that talk to each other over a CAN bus (C126, C137, C138). *)
From Verif Require Import Base BitLemmas CoreModel CrcModel FilterModel CanIdModel CanSpec CanIdProofs FilterProofs CanTxModel CanTxSpec CanTxProofs CanQueueModel CanQueueSpec CanQueueProofs CanFlushProofs
  CanRxModel CanRxSpec CanRxProofs CanRxProps CanIdProps BxModel BxSpec BxProofs BxQueueProofs BxRxProofs BxProps BusSpec BusProofs BusProps NodeModel NodeSpec NodeProofs NodeProps NetSpec NetProofs.

Ltac Zify.zify_post_hook ::= Z.div_mod_to_equations.

(** * C126: transfers to one node *)

(** As C126_delivered_partial, when the sender also sends requests or responses to other nodes on the same port, and when the transfer IDs of neighbours are only different, as they are when transfers in between were refused. *)
Theorem C126_addressed_partial : forall cap banks script ts q x k p s prio dest local max ds,
  (forall j, fst (script j) < 2 ^ 32) -> sender cap banks script ts q (Ok x, k) -> dest_fits p dest -> (forall d, dest = Some d -> local = Some d) ->
  Forall (fun t => h_prio (t_header t) = prio /\ bytes_ok (t_payload t)) (filter (comes_to p s dest) ts) -> in_time script p s dest ts ->
  differing (map (fun t => h_tid (t_header t)) (filter (comes_to p s dest) ts)) -> all_sent cap p s dest q x -> node_reads local p s dest max (sent (bx_can x)) ds ->
  Forall2 (received_as max) (filter (comes_to p s dest) ts) (filter (comes_from p s) ds).
Proof. exact transfers_delivered. Qed.
Print Assumptions C126_addressed_partial.

(** * C137: messages from node to node *)

(** A node publishes messages on a subject, all with one priority.  It may do anything else as well: send other transfers, be refused by a full queue, start and stop, receive.  The messages that it sends have
    transfer IDs that differ from that before, their deadlines do not pass, and all their frames have been sent.
    Another node with a driver and a receiver that is subscribed to the subject has read all these frames, in the order sent, among any other frames.
    Then its handler gets exactly the messages for which [publish] returned [Ok], each once, in this order, cut to the maximum size. *)
Theorem C137_messages : forall cap banks script k P R id h n ts q x j subject prio local max ds,
  (forall i, fst (script i) < 2 ^ 32) -> kind_ok TransportCan k -> id <= 127 ->
  station cap banks script (core_new TransportCan k P R (Some id)) h n ts q (Ok x, j) -> keeps_id h -> publishes_with subject prio h ->
  differing (map fst (sent_messages subject h)) -> in_time script (PMsg subject) id None ts -> all_sent cap (PMsg subject) id None q x ->
  node_reads local (PMsg subject) id None max (sent (bx_can x)) ds ->
  log_of (message_log subject id) ds = map (fun m => (fst m, firstn max (snd m))) (sent_messages subject h).
Proof.
  intros cap banks script k P R id h n ts q x j subject prio local max ds Hs Hk Hid Hst Hkeep Hprio Hdiff Htime Hsent Hreads.
  pose proof (station_messages cap banks script k P R id Hk subject prio h n ts q _ Hst Hkeep Hprio) as Hms.
  destruct (station_delivered cap banks script k P R id h n ts q x j (PMsg subject) None prio _ local max ds Hs Hk Hid Hst Hms Hdiff I ltac:(discriminate) Htime Hsent Hreads) as (D1 & D2).
  rewrite (message_logged subject id ds D2). exact (that_pairs _ _ _ _ _ _ D1).
Qed.
Print Assumptions C137_messages.

(** The transfer IDs differ when publishing was started at most once and no message was refused. *)
Theorem C137_ids : forall cap banks script k P R id0 h n ts q w subject,
  kind_ok TransportCan k -> station cap banks script (core_new TransportCan k P R id0) h n ts q w -> no_message_refused subject h ->
  map fst (sent_messages subject h) = map (fun i => N.of_nat i mod 32) (seq 0 (length (sent_messages subject h))) /\ differing (map fst (sent_messages subject h)).
Proof.
  intros cap banks script k P R id0 h n ts q w subject Hk Hst Hno. destruct (station_hist _ _ _ _ _ _ _ _ _ Hst) as (Hh & Hf).
  destruct (message_ids k P R id0 subject h n Hk Hh Hf Hno) as (C & _). split; [|exact (counted_differing _ _ C)]. destruct C as (_ & E). rewrite map_length in E. exact E.
Qed.
Print Assumptions C137_ids.

(** * C138: remote procedure calls *)

(** Requests: the handler of the server gets exactly those for which [send_request] returned a transfer ID, each once and in order, with tokens that name the client and this transfer ID. *)
Theorem C138_requests : forall cap banks script k P R client h n ts q x j service server prio max ds,
  (forall i, fst (script i) < 2 ^ 32) -> kind_ok TransportCan k -> client <= 127 ->
  station cap banks script (core_new TransportCan k P R (Some client)) h n ts q (Ok x, j) -> keeps_id h -> requests_with service prio h ->
  differing (map fst (sent_requests service server h)) -> in_time script (PReq service) client (Some server) ts -> all_sent cap (PReq service) client (Some server) q x ->
  node_reads (Some server) (PReq service) client (Some server) max (sent (bx_can x)) ds ->
  log_of (request_log service client) ds = map (fun m => (Token service client (fst m) prio, firstn max (snd m))) (sent_requests service server h).
Proof.
  intros cap banks script k P R client h n ts q x j service server prio max ds Hs Hk Hid Hst Hkeep Hprio Hdiff Htime Hsent Hreads.
  pose proof (station_requests cap banks script k P R client Hk service server prio h n ts q _ Hst Hkeep Hprio) as Hms.
  destruct (station_delivered cap banks script k P R client h n ts q x j (PReq service) (Some server) prio _ (Some server) max ds Hs Hk Hid Hst Hms Hdiff I (fun d E => E) Htime Hsent Hreads) as (D1 & D2).
  rewrite (request_logged service client ds D2). rewrite (that_tokens service client _ _ _ _ _ _ D1), map_map. reflexivity.
Qed.
Print Assumptions C138_requests.

(** Responses: the handler of the client gets exactly those for which [send_response] returned [Ok], each once and in order, with the transfer IDs of the tokens. *)
Theorem C138_responses : forall cap banks script k P R server h n ts q x j service client prio max ds,
  (forall i, fst (script i) < 2 ^ 32) -> kind_ok TransportCan k -> server <= 127 ->
  station cap banks script (core_new TransportCan k P R (Some server)) h n ts q (Ok x, j) -> keeps_id h -> Forall (fun a => rt_priority (fst a) = prio) (sent_responses service client h) ->
  differing (map (fun a => rt_transfer (fst a)) (sent_responses service client h)) -> in_time script (PResp service) server (Some client) ts -> all_sent cap (PResp service) server (Some client) q x ->
  node_reads (Some client) (PResp service) server (Some client) max (sent (bx_can x)) ds ->
  log_of (response_log service server) ds = map (fun a => (rt_transfer (fst a), firstn max (snd a))) (sent_responses service client h).
Proof.
  intros cap banks script k P R server h n ts q x j service client prio max ds Hs Hk Hid Hst Hkeep Hprio Hdiff Htime Hsent Hreads.
  pose proof (station_responses cap banks script k P R server Hk service client prio h n ts q _ Hst Hkeep Hprio) as Hms.
  assert (Hdiff' : differing (map fst (map token_pair (sent_responses service client h)))) by (rewrite map_map; exact Hdiff).
  destruct (station_delivered cap banks script k P R server h n ts q x j (PResp service) (Some client) prio _ (Some client) max ds Hs Hk Hid Hst Hms Hdiff' I (fun d E => E) Htime Hsent Hreads) as (D1 & D2).
  rewrite (response_logged service server ds D2). rewrite (that_pairs _ _ _ _ _ _ D1), map_map. reflexivity.
Qed.
Print Assumptions C138_responses.

(** Both together: the client has sent requests to the server, which answers each request that its handler gets with [answer] of its payload, in order.  Then the handler of the client gets for each transfer ID that
    [send_request] returned exactly one response, with this ID and the answer to this request, in order; whatever else the two nodes do, and whatever other nodes send. *)
Theorem C138_calls : forall service client server prio answer
    cap banks script k P R h n ts q x j max ds (* the client sends, the server reads *)
    cap' banks' script' k' P' R' h' n' ts' q' x' j' max' ds' (* the server sends, the client reads *),
  client <= 127 -> server <= 127 ->
  (forall i, fst (script i) < 2 ^ 32) -> kind_ok TransportCan k -> station cap banks script (core_new TransportCan k P R (Some client)) h n ts q (Ok x, j) -> keeps_id h -> requests_with service prio h ->
  differing (map fst (sent_requests service server h)) -> in_time script (PReq service) client (Some server) ts -> all_sent cap (PReq service) client (Some server) q x ->
  node_reads (Some server) (PReq service) client (Some server) max (sent (bx_can x)) ds ->
  (forall i, fst (script' i) < 2 ^ 32) -> kind_ok TransportCan k' -> station cap' banks' script' (core_new TransportCan k' P' R' (Some server)) h' n' ts' q' (Ok x', j') -> keeps_id h' ->
  sent_responses service client h' = map (fun a => (fst a, answer (snd a))) (log_of (request_log service client) ds) ->
  in_time script' (PResp service) server (Some client) ts' -> all_sent cap' (PResp service) server (Some client) q' x' ->
  node_reads (Some client) (PResp service) server (Some client) max' (sent (bx_can x')) ds' ->
  log_of (response_log service server) ds' = map (fun m => (fst m, firstn max' (answer (firstn max (snd m))))) (sent_requests service server h).
Proof.
  intros service client server prio answer cap banks script k P R h n ts q x j max ds cap' banks' script' k' P' R' h' n' ts' q' x' j' max' ds' Hc Hv Hs Hk Hst Hkeep Hprio Hdiff Htime Hsent Hreads Hs' Hk' Hst' Hkeep' Hans Htime' Hsent' Hreads'.
  pose proof (C138_requests cap banks script k P R client h n ts q x j service server prio max ds Hs Hk Hc Hst Hkeep Hprio Hdiff Htime Hsent Hreads) as Hreq. rewrite Hreq, map_map in Hans. cbn [fst snd] in Hans.
  rewrite (C138_responses cap' banks' script' k' P' R' server h' n' ts' q' x' j' service client prio max' ds' Hs' Hk' Hv Hst' Hkeep'); try assumption.
  - rewrite Hans, map_map. reflexivity.
  - rewrite Hans. apply Forall_forall. intros a Ha. apply in_map_iff in Ha. destruct Ha as (m & <- & _). reflexivity.
  - rewrite Hans, map_map. exact Hdiff.
Qed.
Print Assumptions C138_calls.

(** The transfer IDs differ when the client has started sending requests at most once and no request to the server was refused. *)
Theorem C138_ids : forall cap banks script k P R id0 h n ts q w service server,
  kind_ok TransportCan k -> station cap banks script (core_new TransportCan k P R id0) h n ts q w -> no_request_refused service server h ->
  map fst (sent_requests service server h) = map (fun i => N.of_nat i mod 32) (seq 0 (length (sent_requests service server h))) /\ differing (map fst (sent_requests service server h)).
Proof.
  intros cap banks script k P R id0 h n ts q w service server Hk Hst Hno. destruct (station_hist _ _ _ _ _ _ _ _ _ Hst) as (Hh & Hf).
  destruct (request_ids k P R id0 service server h n Hk Hh Hf Hno) as (C & _). split; [|exact (counted_differing _ _ C)]. destruct C as (_ & E). rewrite map_length in E. exact E.
Qed.
Print Assumptions C138_ids.

(** * Examples *)

(** Running a node step by step *)
Inductive act := ACall (o : op) | AFlush | ASend (m : nat) | AReceive (o : bx_op).
Definition net_state : Type := list entry * core * list transfer * array_queue * (res bx_driver * nat).
Definition bytes_okb (l : list N) : bool := forallb (fun b => b <? 256) l.
Definition op_fineb (o : op) : bool :=
  match o with
  | StartPublishing subject _ priority => (subject <=? 8191) && (priority <=? 7)
  | Publish _ subject payload _ => (subject <=? 8191) && bytes_okb payload
  | StartSendingRequests service _ _ priority _ => (service <=? 511) && (priority <=? 7)
  | SendRequest _ service payload destination _ => (service <=? 511) && ((destination <=? 127) && bytes_okb payload)
  | SendResponse token _ payload _ => ((rt_service token <=? 511) && ((rt_client token <=? 127) && ((rt_transfer token <=? 31) && (rt_priority token <=? 7)))) && bytes_okb payload
  | SetNodeId id => id <=? 127
  | _ => true
  end.
Definition answeredb (o : op) (r : push_result) : bool :=
  match o with
  | Publish _ _ _ e | SendRequest _ _ _ _ e | SendResponse _ _ _ e => match e_push e, r with PushOk, PushOk | PushError EOutOfMemory, PushError EOutOfMemory => true | _, _ => false end
  | _ => true
  end.
Definition receivesb (o : bx_op) : bool := match o with OpTransmit _ _ | OpSend _ => false | _ => true end.
Definition act_step (a : act) (z : net_state) : option net_state :=
  let '(h, n, ts, q, w) := z in
  match a with
  | ACall o =>
      let '(n', calls, r) := core_step n o in
      if op_fineb o then
        match r, calls with
        | OPanic, _ => None
        | _, [CPush t] =>
            match push_inner (lift_reserve aq_ops) (lift_transmit aq_ops) 8 8 (Ok q) t with
            | Ok (Ok q', a) => if answeredb o (told a) then Some ((o, calls, r) :: h, n', ts ++ (match a with CanTxModel.PushOk => [t] | _ => [] end), q', w) else None
            | _ => None
            end
        | _, _ => if existsb (fun c => match c with CPush _ => true | _ => false end) calls then None else Some ((o, calls, r) :: h, n', ts ++ [], q, w)
        end
      else None
  | AFlush => match bx_flush bus_script 40 q w with Ok (Some (q', w', _)) => Some (h, n, ts, q', w') | _ => None end
  | ASend m => match w with (Ok x, k) => Some (h, n, ts, q, (Ok (on_device (dev_send m) x), k)) | _ => None end
  | AReceive o => match w with (Ok x, k) => if receivesb o then match bx_step o x with Ok (x', _) => Some (h, n, ts, q, (Ok x', k)) | Panic => None end else None | _ => None end
  end.
Fixpoint act_run (l : list act) (z : net_state) : option net_state := match l with [] => Some z | a :: r => match act_step a z with Some z' => act_run r z' | None => None end end.
Definition net_new (cap : nat) (n0 : core) : net_state := ([], n0, [], aq_new cap, (Ok (bx_new 14), O)).
Definition at_station (cap : nat) (n0 : core) (z : net_state) : Prop := let '(h, n, ts, q, w) := z in station cap 14 bus_script n0 h n ts q w.

Lemma bytes_okb_ok l : bytes_okb l = true -> bytes_ok l.
Proof. unfold bytes_okb. rewrite forallb_forall. intro H. apply Forall_forall. intros b Hb. apply N.ltb_lt, H, Hb. Qed.
Lemma op_fineb_ok o : op_fineb o = true -> op_fine o.
Proof.
  destruct o; cbn [op_fineb op_fine]; intro H; try exact I; unfold token_fine; rewrite ?andb_true_iff, ?N.leb_le in H; try tauto.
  - split; [apply H|apply bytes_okb_ok, H].
  - split; [apply H|split; [apply H|apply bytes_okb_ok, H] ].
  - destruct H as ((H1 & H2 & H3 & H4) & H5). split; [auto|apply bytes_okb_ok, H5].
Qed.
Lemma answeredb_ok o r : answeredb o r = true -> answered o r.
Proof. destruct o; cbn [answeredb answered]; intro H; try exact I; destruct (e_push e) as [| |e1], r as [| |e2]; try discriminate H; try reflexivity; try (destruct e1; discriminate H); destruct e1, e2; try discriminate H; reflexivity. Qed.
Local Strategy 1000 [push_inner bx_flush core_step bx_step].
Lemma act_step_at cap n0 a z z' : at_station cap n0 z -> act_step a z = Some z' -> at_station cap n0 z'.
Proof.
  destruct z as [ [ [ [h n] ts] q] w]. unfold at_station at 1. intros H E. destruct a as [o| |m|o]; cbn [act_step] in E.
  - destruct (core_step n o) as [ [n' calls] r] eqn:Es. destruct (op_fineb o) eqn:Ef; [|discriminate]. apply op_fineb_ok in Ef.
    assert (Hr : r <> OPanic) by (intros ->; discriminate E).
    assert (E' : match calls with
                 | [CPush t] => match push_inner (lift_reserve aq_ops) (lift_transmit aq_ops) 8 8 (Ok q) t with
                                | Ok (Ok q', a) => if answeredb o (told a) then Some ((o, calls, r) :: h, n', ts ++ (match a with CanTxModel.PushOk => [t] | _ => [] end), q', w) else None
                                | _ => None end
                 | _ => if existsb (fun c => match c with CPush _ => true | _ => false end) calls then None else Some ((o, calls, r) :: h, n', ts ++ [], q, w) end = Some z') by (destruct r; try exact E; congruence).
    clear E. assert (Q : (if existsb (fun c => match c with CPush _ => true | _ => false end) calls then None else Some ((o, calls, r) :: h, n', ts ++ [], q, w)) = Some z' -> at_station cap n0 z').
    { destruct (existsb _ calls) eqn:Ex; [discriminate|]. intro E. injection E as <-. eapply station_call; try eassumption. apply queued_none. intros t Ht. assert (existsb (fun c => match c with CPush _ => true | _ => false end) calls = true) by (apply existsb_exists; exists (CPush t); split; [exact Ht|reflexivity]). congruence. }
    destruct calls as [|c calls]; [exact (Q E')|]. destruct c as [t| | | | | | |], calls as [|c2 calls]; try exact (Q E'); try (destruct c; exact (Q E')).
    destruct (push_inner _ _ 8 8 (Ok q) t) as [ [ [q1|] a]|] eqn:Ep; try discriminate E'. destruct (answeredb o (told a)) eqn:Ea; [|discriminate E']. injection E' as <-. eapply station_call; try eassumption. econstructor; [exact Ep|apply answeredb_ok, Ea].
  - destruct (bx_flush bus_script 40 q w) as [ [ [ [q' w'] r]|]|] eqn:Ef; try discriminate E. injection E as <-. eapply station_flush; eassumption.
  - destruct w as [ [x|] k]; [|discriminate E]. injection E as <-. apply station_send. exact H.
  - destruct w as [ [x|] k]; [|discriminate E]. destruct (receivesb o) eqn:Er; [|discriminate E]. destruct (bx_step o x) as [ [x' out]|] eqn:Es; [|discriminate E]. injection E as <-. eapply station_receive; [exact H| |exact Es]. destruct o; try discriminate Er; exact I.
Qed.
Lemma act_run_at cap n0 l : forall z z', at_station cap n0 z -> act_run l z = Some z' -> at_station cap n0 z'.
Proof.
  induction l as [|a l IH]; intros z z' H E; cbn [act_run] in E; [injection E as <-; exact H|]. destruct (act_step a z) as [z1|] eqn:Ea; [|discriminate]. exact (IH z1 z' (act_step_at cap n0 a z z1 H Ea) E).
Qed.

(** Reading from a bus on which another frame follows each frame: a node 8 that sends a message *)
Definition net_noise : bx_frame := BxFrame true 0x10600a08 (Some [9; 9; 0xe3]).
Definition reader_ops (local : option N) (p : port) (bus : list bx_frame) : list bx_op :=
  OpFilters local [p] (fun _ => true) :: flat_map (fun b => [OpArrive b; OpArrive net_noise; OpReceive 50; OpReceive 51]) bus.
Definition reader_run (local : option N) (p : port) (max : nat) (bus : list bx_frame) : option (list transfer) :=
  match bx_run (reader_ops local p bus) (bx_new 14) with
  | Ok (y, outs) =>
      match waiting (bx_can y), can_step (rx_new local) (CSub p 1000 max true) with
      | [], Ok (r, CSubbed SubscribeOk) =>
          if forallb (fun f => (f_id f <? 2 ^ 29) && (f_ts f <? 2 ^ 32) && bytes_okb (f_data f)) (flat_map received outs) then
            match can_run r (map (fun g => CFrame g true) (flat_map received outs)) with Ok (_, couts) => Some (flat_map (fun o => match o with CGot (RxTransfer t) => [t] | _ => [] end) couts) | Panic => None end
          else None
      | _, _ => None
      end
  | Panic => None
  end.
Lemma reader_reads local p s dest max bus ds : (forall i, local = Some i -> i <= 127) -> port_ok p -> wire_to p s dest net_noise = false -> reader_run local p max bus = Some ds -> node_reads local p s dest max bus ds.
Proof.
  intros Hl Hp Hn E. unfold reader_run in E. destruct (bx_run (reader_ops local p bus) (bx_new 14)) as [ [y outs]|] eqn:Er; [|discriminate]. destruct (waiting (bx_can y)) eqn:Ew; [|discriminate].
  destruct (can_step (rx_new local) (CSub p 1000 max true)) as [ [r [|[| |]|] ]|] eqn:Ec; try discriminate E. destruct (forallb _ (flat_map received outs)) eqn:Ef; [|discriminate].
  destruct (can_run r _) as [ [r' couts]|] eqn:Ed; [|discriminate]. injection E as <-. exists (flat_map received outs), couts. split; [|split; [|reflexivity] ].
  - exists 14%nat, [], (bx_new 14), [], (reader_ops local p bus), y, outs. split; [lia|]. split; [constructor|]. split; [reflexivity|]. split; [constructor|].
    assert (K : forall Q : bx_op -> Prop, Q (OpFilters local [p] (fun _ => true)) -> (forall b, Q (OpArrive b)) -> Q (OpReceive 50) -> Q (OpReceive 51) -> Forall Q (reader_ops local p bus)).
    { intros Q Q1 Q2 Q3 Q4. constructor; [exact Q1|]. apply Forall_forall. intros o Ho. apply in_flat_map in Ho. destruct Ho as (b & _ & Ho). destruct Ho as [<-|[<-|[<-|[<-|[] ] ] ] ]; auto. }
    split; [apply K; [split; [exact Hl|constructor; [exact Hp|constructor] ]|intros; exact I|exact I|exact I]|]. split; [apply K; [split; [reflexivity|left; reflexivity]|intros; exact I|exact I|exact I]|].
    split; [eexists _, _; split; [reflexivity|exact I]|]. split; [apply K; intros; exact I|]. split; [exact Er|]. split; [reflexivity|]. split; [|rewrite Ew; constructor].
    unfold reader_ops, on_bus. cbn [flat_map app]. clear Er Ew Ec Ef Ed K. induction bus as [|b bus IH]; [reflexivity|]. cbn [flat_map app filter]. rewrite Hn, IH. reflexivity.
  - exists local, [(CSub p 1000 max true, CSubbed SubscribeOk)], r, 1000, (map (fun g => CFrame g true) (flat_map received outs)), r'.
    split; [eapply CanRxSpec.ch_step; [apply ch_new|exact I|exact Ec]|]. split; [reflexivity|]. split; [cbn [can_active]; rewrite port_eqb_refl; reflexivity|]. split; [cbn [CanRxSpec.pending]; rewrite port_eqb_refl; reflexivity|]. split; [cbn [last_delivery]; rewrite port_eqb_refl; reflexivity|].
    split; [unfold given_frames; generalize (flat_map received outs); clear; induction l as [|g l IH]; [reflexivity|cbn [map flat_map app]; f_equal; exact IH]|].
    split; [|split; [apply Forall_map, Forall_forall; intros; reflexivity|exact Ed] ]. apply Forall_map, Forall_forall. intros f Hf. rewrite forallb_forall in Ef. specialize (Ef f Hf). rewrite !andb_true_iff, !N.ltb_lt in Ef.
    split; [apply Ef|]. split; [apply Ef|]. apply bytes_okb_ok, Ef.
Qed.

(** Node 7 publishes on subject 10 and sends requests to the nodes 3 and 5.  One message is refused since the queue is too small for it. *)
Definition net_cycle : list act := [AFlush; ASend 1; ASend 0; AFlush; ASend 0; ASend 1; ASend 2].
Definition refused_env : env := Env 10 true (PushError EOutOfMemory).
Definition net_client : list act :=
  [ACall (StartPublishing 10 100 4); ACall (StartSendingRequests 100 100 20 4 SubOk); ACall (Publish false 10 (repeat 1 8) ok_env); ACall (SendRequest false 100 (repeat 2 9) 3 ok_env); ACall (SendRequest false 100 [5] 5 ok_env)]
  ++ net_cycle ++ [AReceive (OpArrive net_noise); AReceive (OpReceive 20); ACall (Publish true 10 [2; 3] ok_env); ACall (Publish false 10 (repeat 4 60) refused_env); ACall (SendRequest true 100 [6] 3 ok_env)] ++ net_cycle ++
  [ACall (Publish false 10 [7] ok_env)] ++ net_cycle ++ net_cycle.
Definition net_core (id : N) : core := core_new TransportCan KCan 4 4 (Some id).
Definition net_done (cap : nat) (p : port) (s : N) (dest : option N) (z : net_state) : bool :=
  let '(_, _, ts, q, w) := z in
  match w with
  | (Ok x, _) => forallb (fun b => negb (wire_to p s dest b)) (BxSpec.pending (bx_can x)) && forallb (fun f => negb (addressed p s dest (f_id f))) (drain (S cap) q) && forallb (fun t => negb (t_lt (h_ts (t_header t)) 10)) ts
  | _ => false
  end.
Lemma net_done_ok cap p s dest h n ts q x k : net_done cap p s dest (h, n, ts, q, (Ok x, k)) = true -> all_sent cap p s dest q x /\ in_time bus_script p s dest ts.
Proof.
  unfold net_done. rewrite !andb_true_iff, !forallb_forall. intros ((H1 & H2) & H3). split; [split; apply Forall_forall; intros b Hb; [specialize (H1 b Hb)|specialize (H2 b Hb)]; apply negb_true_iff; assumption|].
  intros t j Ht _. apply negb_true_iff. exact (H3 t Ht).
Qed.

Definition net_sent (o : option net_state) : list bx_frame := match o with Some (_, _, _, _, (Ok x, _)) => sent (bx_can x) | _ => [] end.
Definition net_hist (o : option net_state) : list entry := match o with Some (h, _, _, _, _) => h | _ => [] end.
Definition net_a : option net_state := act_run net_client (net_new 8 (net_core 7)).
Definition keeps_idb (h : list entry) : bool := forallb (fun en => match en with (SetNodeId _, _, _) => false | _ => true end) h.
Lemma keeps_idb_ok h : keeps_idb h = true -> keeps_id h.
Proof. unfold keeps_idb. rewrite forallb_forall. intros H i c r Hi. specialize (H _ Hi). discriminate H. Qed.
Definition publishes_withb (subject priority : N) (h : list entry) : bool := forallb (fun en => match en with (StartPublishing s _ p, _, _) => negb (s =? subject) || (p =? priority) | _ => true end) h.
Lemma publishes_withb_ok subject priority h : publishes_withb subject priority h = true -> publishes_with subject priority h.
Proof. unfold publishes_withb. rewrite forallb_forall. intros H t p c r Hi. specialize (H _ Hi). cbv beta iota in H. rewrite N.eqb_refl in H. apply N.eqb_eq. exact H. Qed.
Definition requests_withb (service priority : N) (h : list entry) : bool := forallb (fun en => match en with (StartSendingRequests s _ _ p _, _, _) => negb (s =? service) || (p =? priority) | _ => true end) h.
Lemma requests_withb_ok service priority h : requests_withb service priority h = true -> requests_with service priority h.
Proof. unfold requests_withb. rewrite forallb_forall. intros H t m p a c r Hi. specialize (H _ Hi). cbv beta iota in H. rewrite N.eqb_refl in H. apply N.eqb_eq. exact H. Qed.

(** All that the theorems ask of a node that has run *)
Lemma net_run_station cap id acts z : act_run acts (net_new cap (net_core id)) = Some z -> at_station cap (net_core id) z.
Proof. intro E. apply (act_run_at cap (net_core id) acts (net_new cap (net_core id)) z); [apply station_new|exact E]. Qed.

Definition net_good (cap : nat) (p : port) (s : N) (dest : option N) (o : option net_state) : bool :=
  match o with Some z => net_done cap p s dest z && keeps_idb (net_hist o) | None => false end.
Lemma net_package cap id acts p dest : net_good cap p id dest (act_run acts (net_new cap (net_core id))) = true ->
  exists h n ts q x k, act_run acts (net_new cap (net_core id)) = Some (h, n, ts, q, (Ok x, k)) /\ station cap 14 bus_script (core_new TransportCan KCan 4 4 (Some id)) h n ts q (Ok x, k) /\ keeps_id h /\
    in_time bus_script p id dest ts /\ all_sent cap p id dest q x.
Proof.
  destruct (act_run acts (net_new cap (net_core id))) as [ [ [ [ [h n] ts] q] [ [x|] k] ]|] eqn:E; cbn [net_good]; intro C; try discriminate C. apply andb_true_iff in C. destruct C as (C1 & C2).
  destruct (net_done_ok _ _ _ _ _ _ _ _ _ _ C1) as (D1 & D2). exists h, n, ts, q, x, k. split; [reflexivity|]. split; [exact (net_run_station cap id acts _ E)|]. split; [apply keeps_idb_ok, C2|]. split; [exact D2|exact D1].
Qed.

(** The messages of node 7, of which one was refused *)
Example C137_witness : exists h n ts q x k ds,
  station 8 14 bus_script (core_new TransportCan KCan 4 4 (Some 7)) h n ts q (Ok x, k) /\ keeps_id h /\ publishes_with 10 4 h /\ map fst (sent_messages 10 h) = [0; 1; 3] /\ differing [0; 1; 3] /\
  in_time bus_script (PMsg 10) 7 None ts /\ all_sent 8 (PMsg 10) 7 None q x /\ node_reads (Some 3) (PMsg 10) 7 None 5 (sent (bx_can x)) ds /\
  log_of (message_log 10 7) ds = [(0, [1; 1; 1; 1; 1]); (1, [2; 3]); (3, [7])] /\ length (sent (bx_can x)) = 8%nat.
Proof.
  destruct (net_package 8 7 net_client (PMsg 10) None ltac:(vm_compute; reflexivity)) as (h & n & ts & q & x & k & E & H1 & H2 & H3 & H4). fold net_a in E.
  destruct (reader_run (Some 3) (PMsg 10) 5 (net_sent net_a)) as [ds|] eqn:Er; [|vm_compute in Er; discriminate Er].
  assert (Hl : log_of (message_log 10 7) ds = [(0, [1; 1; 1; 1; 1]); (1, [2; 3]); (3, [7])]) by (vm_compute in Er; injection Er as <-; vm_compute; reflexivity).
  assert (K2 : publishes_withb 10 4 (net_hist net_a) = true) by (vm_compute; reflexivity). assert (K3 : map fst (sent_messages 10 (net_hist net_a)) = [0; 1; 3]) by (vm_compute; reflexivity).
  assert (K5 : length (net_sent net_a) = 8%nat) by (vm_compute; reflexivity).
  rewrite E in Er, K2, K3, K5. unfold net_hist in K2, K3. unfold net_sent in Er, K5.
  exists h, n, ts, q, x, k, ds. split; [exact H1|]. split; [exact H2|]. split; [apply publishes_withb_ok, K2|]. split; [exact K3|]. split; [repeat split; discriminate|]. split; [exact H3|]. split; [exact H4|].
  split; [apply reader_reads; [intros i Ei; injection Ei as <-; discriminate|discriminate|reflexivity|exact Er]|]. auto.
Qed.

(** A node that stops publishing and starts again repeats transfer IDs.  Here both messages are accepted and sent, but the handler of the other node gets only the first one. *)
Definition net_restart : list act :=
  [ACall (StartPublishing 10 100 4); ACall (Publish false 10 [1] ok_env)] ++ net_cycle ++ [ACall (StopPublishing 10); ACall (StartPublishing 10 100 4); ACall (Publish false 10 [2] ok_env)] ++ net_cycle.
Theorem C137_restart_lost : exists h n ts q x k ds,
  station 8 14 bus_script (core_new TransportCan KCan 4 4 (Some 7)) h n ts q (Ok x, k) /\ keeps_id h /\ publishes_with 10 4 h /\ sent_messages 10 h = [(0, [1]); (0, [2])] /\
  in_time bus_script (PMsg 10) 7 None ts /\ all_sent 8 (PMsg 10) 7 None q x /\ node_reads (Some 3) (PMsg 10) 7 None 5 (sent (bx_can x)) ds /\
  length (sent (bx_can x)) = 2%nat /\ log_of (message_log 10 7) ds = [(0, [1])].
Proof.
  destruct (net_package 8 7 net_restart (PMsg 10) None ltac:(vm_compute; reflexivity)) as (h & n & ts & q & x & k & E & H1 & H2 & H3 & H4).
  destruct (reader_run (Some 3) (PMsg 10) 5 (net_sent (act_run net_restart (net_new 8 (net_core 7))))) as [ds|] eqn:Er; [|vm_compute in Er; discriminate Er].
  assert (Hl : log_of (message_log 10 7) ds = [(0, [1])]) by (vm_compute in Er; injection Er as <-; vm_compute; reflexivity).
  assert (K2 : publishes_withb 10 4 (net_hist (act_run net_restart (net_new 8 (net_core 7)))) = true) by (vm_compute; reflexivity).
  assert (K3 : sent_messages 10 (net_hist (act_run net_restart (net_new 8 (net_core 7)))) = [(0, [1]); (0, [2])]) by (vm_compute; reflexivity).
  assert (K5 : length (net_sent (act_run net_restart (net_new 8 (net_core 7)))) = 2%nat) by (vm_compute; reflexivity).
  rewrite E in Er, K2, K3, K5. unfold net_hist in K2, K3. unfold net_sent in Er, K5.
  exists h, n, ts, q, x, k, ds. split; [exact H1|]. split; [exact H2|]. split; [apply publishes_withb_ok, K2|]. split; [exact K3|]. split; [exact H3|]. split; [exact H4|].
  split; [apply reader_reads; [intros i Ei; injection Ei as <-; discriminate|discriminate|reflexivity|exact Er]|]. auto.
Qed.
Print Assumptions C137_restart_lost.

(** Node 3 answers the requests of node 7, and one of node 9 *)
Definition net_answer (p : list N) : list N := 1 :: p.
Definition net_server : list act :=
  [ACall (SendResponse (Token 100 7 0 4) 100 (1 :: repeat 2 6) ok_env); ACall (SendResponse (Token 100 9 5 4) 100 (repeat 9 8) ok_env)] ++ net_cycle ++ [ACall (SendResponse (Token 100 7 1 4) 100 [1; 6] ok_env)] ++ net_cycle ++ net_cycle.
Definition net_b : option net_state := act_run net_server (net_new 8 (net_core 3)).
Example C138_witness : exists h n ts q x k ds h' n' ts' q' x' k' ds',
  station 8 14 bus_script (core_new TransportCan KCan 4 4 (Some 7)) h n ts q (Ok x, k) /\ keeps_id h /\ requests_with 100 4 h /\ sent_requests 100 3 h = [(0, repeat 2 9); (1, [6])] /\ no_request_refused 100 3 h /\
  in_time bus_script (PReq 100) 7 (Some 3) ts /\ all_sent 8 (PReq 100) 7 (Some 3) q x /\ node_reads (Some 3) (PReq 100) 7 (Some 3) 6 (sent (bx_can x)) ds /\
  log_of (request_log 100 7) ds = [(Token 100 7 0 4, repeat 2 6); (Token 100 7 1 4, [6])] /\
  station 8 14 bus_script (core_new TransportCan KCan 4 4 (Some 3)) h' n' ts' q' (Ok x', k') /\ keeps_id h' /\ sent_responses 100 7 h' = map (fun a => (fst a, net_answer (snd a))) (log_of (request_log 100 7) ds) /\
  in_time bus_script (PResp 100) 3 (Some 7) ts' /\ all_sent 8 (PResp 100) 3 (Some 7) q' x' /\ node_reads (Some 7) (PResp 100) 3 (Some 7) 3 (sent (bx_can x')) ds' /\
  log_of (response_log 100 3) ds' = [(0, [1; 2; 2]); (1, [1; 6])].
Proof.
  destruct (net_package 8 7 net_client (PReq 100) (Some 3) ltac:(vm_compute; reflexivity)) as (h & n & ts & q & x & k & E & H1 & H2 & H3 & H4). fold net_a in E.
  destruct (net_package 8 3 net_server (PResp 100) (Some 7) ltac:(vm_compute; reflexivity)) as (h' & n' & ts' & q' & x' & k' & E' & H1' & H2' & H3' & H4'). fold net_b in E'.
  destruct (reader_run (Some 3) (PReq 100) 6 (net_sent net_a)) as [ds|] eqn:Er; [|vm_compute in Er; discriminate Er].
  destruct (reader_run (Some 7) (PResp 100) 3 (net_sent net_b)) as [ds'|] eqn:Er'; [|vm_compute in Er'; discriminate Er'].
  assert (Hl : log_of (request_log 100 7) ds = [(Token 100 7 0 4, repeat 2 6); (Token 100 7 1 4, [6])]) by (vm_compute in Er; injection Er as <-; vm_compute; reflexivity).
  assert (Hl' : log_of (response_log 100 3) ds' = [(0, [1; 2; 2]); (1, [1; 6])]) by (vm_compute in Er'; injection Er' as <-; vm_compute; reflexivity).
  assert (K2 : requests_withb 100 4 (net_hist net_a) = true) by (vm_compute; reflexivity). assert (K3 : sent_requests 100 3 (net_hist net_a) = [(0, repeat 2 9); (1, [6])]) by (vm_compute; reflexivity).
  assert (K4 : length (filter (starts_requests 100) (net_hist net_a)) = 1%nat) by (vm_compute; reflexivity).
  assert (K5 : forallb (fun en => match en with (SendRequest _ _ _ _ _, _, OTransferId _) => true | (SendRequest _ _ _ _ _, _, _) => false | _ => true end) (net_hist net_a) = true) by (vm_compute; reflexivity).
  assert (K6 : sent_responses 100 7 (net_hist net_b) = [(Token 100 7 0 4, 1 :: repeat 2 6); (Token 100 7 1 4, [1; 6])]) by (vm_compute; reflexivity).
  rewrite E in Er, K2, K3, K4, K5. rewrite E' in Er', K6. unfold net_hist in K2, K3, K4, K5, K6. unfold net_sent in Er, Er'.
  exists h, n, ts, q, x, k, ds, h', n', ts', q', x', k', ds'. split; [exact H1|]. split; [exact H2|]. split; [apply requests_withb_ok, K2|]. split; [exact K3|].
  split. { split; [rewrite K4; apply le_n|]. intros lb payload e calls r Hi. rewrite forallb_forall in K5. specialize (K5 _ Hi). cbv beta iota in K5. destruct r; try discriminate K5. eexists. reflexivity. }
  split; [exact H3|]. split; [exact H4|]. split; [apply reader_reads; [intros i Ei; injection Ei as <-; discriminate|discriminate|reflexivity|exact Er]|]. split; [exact Hl|].
  split; [exact H1'|]. split; [exact H2'|]. split; [rewrite Hl, K6; reflexivity|]. split; [exact H3'|]. split; [exact H4'|].
  split; [apply reader_reads; [intros i Ei; injection Ei as <-; discriminate|discriminate|reflexivity|exact Er']|exact Hl'].
Qed.
