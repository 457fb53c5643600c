(** Specification of whole CAN nodes: histories, what a node has received in them, and when it listens to another node. *)
From Verif Require Import Base CoreModel CanIdModel CanSpec CanTxModel CanTxSpec CanQueueModel CanQueueSpec CanRxModel CanRxSpec CanIdProps BxModel BxSpec BusSpec NodeModel NodeSpec NetSpec BxPnpModel CanNodeModel.

(** What the Rust types allow *)
Definition call_fine (o : op) : Prop := op_fine o /\ match o with SubscribeMessage s _ _ _ | UnsubscribeMessage s => s <= 8191 | SubscribeRequest s _ _ _ | UnsubscribeRequest s => s <= 511 | _ => True end.
Definition event_fine (ev : node_event) : Prop :=
  match ev with
  | EvCall o _ _ => call_fine o
  | EvReceive clock _ => forall k, clock k < 2 ^ 32
  | EvArrive b => forall data, b_data b = Some data -> bytes_ok data
  | _ => True
  end.

(** Histories from a state, latest first *)
Inductive node_path (script : nat -> N * list nat) (z0 : can_node) : list (node_event * node_result) -> can_node -> Prop :=
| path_here : node_path script z0 [] z0
| path_step h z ev z' res : node_path script z0 h z -> event_fine ev -> can_node_step script ev z = Ok (z', res) -> node_path script z0 ((ev, res) :: h) z'.

(** The functions called, latest first *)
Definition node_calls (h : list (node_event * node_result)) : list entry := flat_map (fun e => match snd e with ResCall o calls r => [(o, calls, r)] | _ => [] end) h.
(** The transfers that the node has received (and given to its handler), oldest first *)
Fixpoint node_got (h : list (node_event * node_result)) : list transfer :=
  match h with [] => [] | (_, ResReceive (Received t)) :: h' => node_got h' ++ [t] | _ :: h' => node_got h' end.
(** The frames on the bus, oldest first *)
Fixpoint node_bus (h : list (node_event * node_result)) : list bx_frame :=
  match h with [] => [] | (EvArrive b, _) :: h' => node_bus h' ++ [b] | _ :: h' => node_bus h' end.

(** A call that has subscribed to a port, with up to [max] bytes *)
Definition subscribes (p : port) (max : nat) (en : entry) : Prop :=
  match en with
  | (SubscribeMessage s m _ _, _, ODone) => p = PMsg s /\ m = max
  | (SubscribeRequest s m _ _, _, ODone) => p = PReq s /\ m = max
  | (StartSendingRequests s _ m _ _, _, OToken _) => p = PResp s /\ m = max
  | _ => False
  end.
(** The port that a call to the receiver is about *)
Definition call_port (c : call) : option port :=
  match c with
  | CSubMessage s _ _ | CUnsubMessage s => Some (PMsg s)
  | CSubRequest s _ _ | CUnsubRequest s => Some (PReq s)
  | CSubResponse s _ _ | CUnsubResponse s => Some (PResp s)
  | CPush _ | NodeModel.CSetId _ => None
  end.
(** The subscription to [p] is not changed *)
Definition keeps_port (p : port) (h : list entry) : Prop := forall o calls r c, In (o, calls, r) h -> In c calls -> call_port c <> Some p.
(** Reception does not fail for lack of memory *)
Definition memory_enough (h : list (node_event * node_result)) : Prop := forall clock mem res, In (EvReceive clock mem, res) h -> forall k, mem k = true.
(** No frame from [s] on [p] to [dest] waits to be read *)
Definition none_waiting (p : port) (s : N) (dest : option N) (z : can_node) : Prop := Forall (fun b => wire_to p s dest b = false) (waiting (bx_can (cn_driver z))).

(** A node with the ID [id] that has run since it was made, and kept its ID *)
Definition running (cap banks : nat) (script : nat -> N * list nat) (k : tracker_kind) (P R : nat) (id : option N) (h : list (node_event * node_result)) (z : can_node) : Prop :=
  (1 <= banks)%nat /\ (forall i, fst (script i) < 2 ^ 32) /\ kind_ok TransportCan k /\ (forall i, id = Some i -> i <= 127) /\
  node_path script (can_node_new cap banks k P R id) h z /\ keeps_id (node_calls h).

(** In the history [h] the node listens: it has done anything before, then it subscribes to [p], and keeps this subscription.  Since then, of the frames from [s] on [p] to [dest], those in [bus] were on the bus, and
    the node has read all of them; [ts] are the transfers that it has received. *)
Definition listened (script : nat -> N * list nat) (z0 : can_node) (h : list (node_event * node_result)) (z : can_node) (p : port) (s : N) (dest : option N) (max : nat) (bus : list bx_frame) (ts : list transfer) : Prop :=
  exists h1 z1 ev o calls r z2 h2, h = h2 ++ (ev, ResCall o calls r) :: h1 /\
    node_path script z0 h1 z1 /\ none_waiting p s dest z1 /\
    event_fine ev /\ can_node_step script ev z1 = Ok (z2, ResCall o calls r) /\ subscribes p max (o, calls, r) /\
    node_path script z2 h2 z /\ keeps_port p (node_calls h2) /\ memory_enough h2 /\ none_waiting p s dest z /\
    filter (wire_to p s dest) (node_bus h2) = filter (wire_to p s dest) bus /\ ts = node_got h2.

(** No deadline passes before the frames are sent *)
Definition on_time (script : nat -> N * list nat) (p : port) (s : N) (dest : option N) (h : list entry) : Prop :=
  forall o calls r t j, In (o, calls, r) h -> In (CPush t) calls -> comes_to p s dest t = true -> t_lt (h_ts (t_header t)) (fst (script j)) = false.

(** * Filters *)

(** A call after which the filters are those for the current node ID and subscriptions *)
Definition renews (en : entry) : bool :=
  match en with
  | (SubscribeMessage _ _ _ _, _, ODone) | (SubscribeRequest _ _ _ _, _, ODone) | (StartSendingRequests _ _ _ _ _, _, OToken _) | (UnsubscribeMessage _, _, _) | (UnsubscribeRequest _, _, _) => true
  | _ => false
  end.
(** The node ID has been set, and no subscription has been changed since *)
Fixpoint id_changed (h : list entry) : bool :=
  match h with
  | [] => false
  | en :: h' => if renews en then false else match en with (SetNodeId _, _, _) => true | _ => id_changed h' end
  end.
(** The subscriptions of a node that its functions [subscribers] and [servers] report, and those for responses *)
Definition subscribed (p : port) (z : can_node) : Prop :=
  match p with PMsg s => In s (rx_subscribers (cn_receiver z)) | PReq s => In s (rx_servers (cn_receiver z)) | PResp _ => In p (map su_port (rx_subs (cn_receiver z))) end.
(** The hardware lets a frame through *)
Definition lets_through (z : can_node) (b : bx_frame) : bool := existsb (bank_accepts b) (d_banks (bx_can (cn_driver z))).

(** * Panics *)

(** Requests are sent with a token that [start_sending_requests] has returned and [stop_sending_requests] has not consumed; responses only by a node with an ID *)
Definition call_allowed (id : option N) (h : list entry) (o : op) : Prop :=
  match o with
  | SendRequest _ s _ _ _ => req_started s h <> None
  | SendResponse _ _ _ _ => id_after id h <> None
  | _ => True
  end.
(** [flush] of a node with a queue of capacity [cap]: the bound for the loop is great enough (it is not part of the code) *)
Definition event_allowed (cap : nat) (id : option N) (h : list entry) (ev : node_event) : Prop :=
  match ev with EvCall o _ _ => call_allowed id h o | EvFlush fuel => (2 * (cap + 3) + 2 <= fuel)%nat | _ => True end.
(** First frames of transfers of several frames have at least two bytes and the tail byte *)
Definition starts_long (b : bx_frame) : Prop :=
  forall data body toggle tid, b_data b = Some data -> tid <= 31 -> data = body ++ [tail_byte true false toggle tid] -> (2 <= length body)%nat.
