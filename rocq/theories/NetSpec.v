(** Specification of nodes that talk to each other over a CAN bus: a core node with an output queue and a bxCAN driver, and another one with the bxCAN driver, a receiver and a handler. *)
From Verif Require Import Base CoreModel CanIdModel CanSpec CanTxModel CanTxSpec CanQueueModel CanQueueSpec CanRxModel CanRxSpec CanIdProps BxModel BxSpec BusSpec NodeModel NodeSpec.

(** * Transfers to one node *)

Definition same_dest (a b : option N) : bool := match a, b with Some x, Some y => x =? y | None, None => true | _, _ => false end.
(** Transfers from node [s] on port [p] to node [dest]; [None]: to all nodes *)
Definition comes_to (p : port) (s : N) (dest : option N) (t : transfer) : bool := comes_from p s t && same_dest (h_dest (t_header t)) dest.
(** Identifiers and frames of these: the destination is in the bits 7 to 13 *)
Definition addressed (p : port) (s : N) (dest : option N) (id : N) : bool :=
  sent_by p s (Frame 0 id false []) && match dest with Some d => bits_at id 7 7 =? d | None => true end.
Definition wire_to (p : port) (s : N) (dest : option N) (b : bx_frame) : bool := b_extended b && addressed p s dest (b_id b).
(** Messages are for all nodes, requests and responses for one *)
Definition dest_fits (p : port) (dest : option N) : Prop := match p, dest with PMsg _, None | PReq _, Some _ | PResp _, Some _ => True | _, _ => False end.
(** No two neighbours are equal *)
Fixpoint differing (l : list N) : Prop := match l with a :: (b :: _) as r => a <> b /\ differing r | _ => True end.

(** All frames from [s] on [p] to [dest] have left the queue and the mailboxes *)
Definition all_sent (cap : nat) (p : port) (s : N) (dest : option N) (q : array_queue) (x : bx_driver) : Prop :=
  Forall (fun b => wire_to p s dest b = false) (BxSpec.pending (bx_can x)) /\ Forall (fun f => addressed p s dest (f_id f) = false) (drain (S cap) q).
(** A driver that sends nothing in the name of [s] on [p], at some time with any history and no such frame waiting.  Since then it has had filters for node [local] and port [p].  Of the frames from [s] on [p] to
    [dest], those in [bus] have arrived, and all have been read; [frames] are the frames that it has handed out. *)
Definition driver_reads (local : option N) (p : port) (s : N) (dest : option N) (bus : list bx_frame) (frames : list frame) : Prop :=
  exists n ops0 x outs0 ops y outs, (1 <= n)%nat /\ Forall (not_from p s) ops0 /\ bx_run ops0 (bx_new n) = Ok (x, outs0) /\ Forall (fun b => wire_to p s dest b = false) (waiting (bx_can x)) /\
    Forall filters_ok ops /\ Forall (filters_for local p) ops /\ (exists o rest, ops = o :: rest /\ sets_filters o) /\ Forall (not_from p s) ops /\
    bx_run ops x = Ok (y, outs) /\ frames = flat_map received outs /\
    filter (wire_to p s dest) (on_bus ops) = filter (wire_to p s dest) bus /\ Forall (fun b => wire_to p s dest b = false) (waiting (bx_can y)).
(** A receiver of node [local] with any history that is subscribed to [p], with up to [max] bytes, and has not received anything from [s] on [p] since; it is given the frames [frames], with enough memory,
    while other subscriptions may change.  [couts] are its answers. *)
Definition receiver_reads (local : option N) (p : port) (s : N) (max : nat) (frames : list frame) (couts : list can_out) : Prop :=
  exists id h r timeout rops r', can_hist id h r /\ can_node id h = local /\ can_active p h = Some (timeout, max) /\ CanRxSpec.pending p s h = [] /\ last_delivery p s h = None /\
    given_frames rops = frames /\ Forall can_op_ok rops /\ Forall (leaves p) rops /\ can_run r rops = Ok (r', couts).
(** Both together: node [local] reads from the bus, and its receiver delivers the transfers [ts] *)
Definition node_reads (local : option N) (p : port) (s : N) (dest : option N) (max : nat) (bus : list bx_frame) (ts : list transfer) : Prop :=
  exists frames couts, driver_reads local p s dest bus frames /\ receiver_reads local p s max frames couts /\
    ts = flat_map (fun o => match o with CGot (RxTransfer t) => [t] | _ => [] end) couts.

(** * A node that sends *)

(** What the Rust types allow *)
Definition token_fine (k : response_token) : Prop := rt_service k <= 511 /\ rt_client k <= 127 /\ rt_transfer k <= 31 /\ rt_priority k <= 7.
Definition op_fine (o : op) : Prop :=
  match o with
  | StartPublishing subject timeout priority => subject <= 8191 /\ priority <= 7
  | Publish _ subject payload e => subject <= 8191 /\ bytes_ok payload
  | StartSendingRequests service timeout _ priority _ => service <= 511 /\ priority <= 7
  | SendRequest _ service payload destination e => service <= 511 /\ destination <= 127 /\ bytes_ok payload
  | SendResponse token timeout payload e => token_fine token /\ bytes_ok payload
  | SetNodeId id => id <= 127
  | _ => True
  end.
(** What the transmitter answers (canadensis_can/src/tx.rs:57-83 [push]) *)
Definition told (r : CanTxModel.push_res) : push_result :=
  match r with CanTxModel.PushOk => PushOk | PushMemory => PushError EOutOfMemory | CanTxModel.PushWouldBlock => PushWouldBlock | PushDriver => PushError (EOther 0) end.
Definition answered (o : op) (r : push_result) : Prop :=
  match o with Publish _ _ _ e | SendRequest _ _ _ _ e | SendResponse _ _ _ e => e_push e = r | _ => True end.
(** The transfers that an operation gives to the transmitter are put into the queue, or refused, and the operation is told so; the last list are the transfers taken *)
Inductive queued (o : op) (q : array_queue) : list call -> array_queue -> list transfer -> Prop :=
| queued_none calls : (forall t, ~ In (CPush t) calls) -> queued o q calls q []
| queued_one t q' r : push_inner (lift_reserve aq_ops) (lift_transmit aq_ops) 8 8 (Ok q) t = Ok (Ok q', r) -> answered o (told r) ->
    queued o q [CPush t] q' (match r with CanTxModel.PushOk => [t] | _ => [] end).

(** A node: [station cap banks script n0 h n ts q w] when the operations [h] (latest first) were carried out on the node [n0] with a queue of capacity [cap] and a bxCAN driver, with flushes in between, the
    hardware sending frames at any time, and the driver used to receive as well.  [ts] are the transfers that the queue has taken. *)
Inductive station (cap banks : nat) (script : nat -> N * list nat) (n0 : core) : list entry -> core -> list transfer -> array_queue -> res bx_driver * nat -> Prop :=
| station_new : station cap banks script n0 [] n0 [] (aq_new cap) (Ok (bx_new banks), O)
| station_call h n ts q w o n' calls r q' taken : station cap banks script n0 h n ts q w -> op_fine o -> core_step n o = (n', calls, r) -> r <> OPanic -> queued o q calls q' taken ->
    station cap banks script n0 ((o, calls, r) :: h) n' (ts ++ taken) q' w
| station_flush h n ts q w fuel q' w' r : station cap banks script n0 h n ts q w -> bx_flush script fuel q w = Ok (Some (q', w', r)) -> station cap banks script n0 h n ts q' w'
| station_send h n ts q x k m : station cap banks script n0 h n ts q (Ok x, k) -> station cap banks script n0 h n ts q (Ok (on_device (dev_send m) x), k)
| station_receive h n ts q x k o x' out : station cap banks script n0 h n ts q (Ok x, k) -> receives o -> bx_step o x = Ok (x', out) -> station cap banks script n0 h n ts q (Ok x', k).

(** The node keeps its ID *)
Definition keeps_id (h : list entry) : Prop := forall id calls r, ~ In (SetNodeId id, calls, r) h.
(** No deadline passes before the frames are sent *)
Definition in_time (script : nat -> N * list nat) (p : port) (s : N) (dest : option N) (ts : list transfer) : Prop :=
  forall t j, In t ts -> comes_to p s dest t = true -> t_lt (h_ts (t_header t)) (fst (script j)) = false.

(** * Messages *)

(** The messages on a subject for which [publish] returned [Ok], with their transfer IDs, oldest first *)
Definition message_id (calls : list call) : N := match calls with CPush t :: _ => h_tid (t_header t) | _ => 0 end.
Fixpoint sent_messages (subject : N) (h : list entry) : list (N * list N) :=
  match h with
  | [] => []
  | (Publish _ s payload _, calls, ODone) :: h' => sent_messages subject h' ++ if s =? subject then [(message_id calls, payload)] else []
  | _ :: h' => sent_messages subject h'
  end.
(** The priority with which it publishes *)
Definition publishes_with (subject priority : N) (h : list entry) : Prop :=
  forall timeout p calls r, In (StartPublishing subject timeout p, calls, r) h -> p = priority.
(** A handler that writes down the messages from node [s] on a subject *)
Definition message_log (subject s : N) : handler (list (N * list N)) :=
  Handler (fun w m _ p => (true, if (mh_subject m =? subject) && same_dest (mh_source m) (Some s) then w ++ [(mh_tid m, p)] else w)) (fun w _ _ _ _ => (true, w)) (fun w _ _ _ => (true, w)) (fun w _ => (true, w)).

(** * Requests and responses *)

(** The requests for which [send_request] returned a transfer ID, with this ID, oldest first *)
Fixpoint sent_requests (service server : N) (h : list entry) : list (N * list N) :=
  match h with
  | [] => []
  | (SendRequest _ s payload d _, _, OTransferId id) :: h' => sent_requests service server h' ++ if (s =? service) && (d =? server) then [(id, payload)] else []
  | _ :: h' => sent_requests service server h'
  end.
Definition requests_with (service priority : N) (h : list entry) : Prop :=
  forall timeout max p a calls r, In (StartSendingRequests service timeout max p a, calls, r) h -> p = priority.
(** A handler that writes down the requests from a client with their tokens *)
Definition request_log (service client : N) : handler (list (response_token * list N)) :=
  Handler (fun w _ _ _ => (true, w)) (fun w k s _ p => (true, if (sh_service s =? service) && (sh_source s =? client) then w ++ [(k, p)] else w)) (fun w _ _ _ => (true, w)) (fun w _ => (true, w)).
(** The responses for which [send_response] returned [Ok], with their tokens, oldest first *)
Fixpoint sent_responses (service client : N) (h : list entry) : list (response_token * list N) :=
  match h with
  | [] => []
  | (SendResponse k _ payload _, _, ODone) :: h' => sent_responses service client h' ++ if (rt_service k =? service) && (rt_client k =? client) then [(k, payload)] else []
  | _ :: h' => sent_responses service client h'
  end.
(** A handler that writes down the responses from a server with their transfer IDs *)
Definition response_log (service server : N) : handler (list (N * list N)) :=
  Handler (fun w _ _ _ => (true, w)) (fun w _ _ _ _ => (true, w)) (fun w s _ p => (true, if (sh_service s =? service) && (sh_source s =? server) then w ++ [(sh_tid s, p)] else w)) (fun w _ => (true, w)).
(** What a handler has written down when it has got these transfers *)
Definition log_of {A} (hd : handler (list A)) (ts : list transfer) : list A := snd (core_receive hd (map RecvTransfer ts ++ [RecvNone]) []).

(** * When transfer IDs do not repeat *)

(** Publishing on a subject was started at most once, and no message was refused after that *)
Definition starts_publishing (subject : N) (en : entry) : bool := match en with (StartPublishing s _ _, _, _) => s =? subject | _ => false end.
Definition no_message_refused (subject : N) (h : list entry) : Prop :=
  (length (filter (starts_publishing subject) h) <= 1)%nat /\ forall lb payload e calls r, In (Publish lb subject payload e, calls, r) h -> r = ODone \/ r = ONotPublishing.
(** The same for requests to a server *)
Definition starts_requests (service : N) (en : entry) : bool := match en with (StartSendingRequests s _ _ _ _, _, _) => s =? service | _ => false end.
Definition no_request_refused (service server : N) (h : list entry) : Prop :=
  (length (filter (starts_requests service) h) <= 1)%nat /\ forall lb payload e calls r, In (SendRequest lb service payload server e, calls, r) h -> exists id, r = OTransferId id.
