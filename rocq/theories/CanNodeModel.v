(** Model of a whole CAN node: canadensis/src/node/core.rs [CoreNode] with [CanTransmitter], [CanReceiver] and a [SingleQueueDriver] of an [ArrayQueue] and a [BxCanDriver].

    - NodeModel models the core node and takes the answers of transmitter and receiver as inputs.  Here these are the models of the transmitter (CanTxModel), the receiver (CanRxModel), the queue (CanQueueModel) and
      the driver (BxModel), and the answers are theirs.
    - The time, the results of allocations, the hardware and the bus are inputs.
    - [receive] of the node is one step for each call to [receive] of the receiver, so that what a handler does with the node in between are further steps. *)
From Verif Require Import Base CoreModel CanIdModel CanTxModel CanQueueModel CanRxModel BxModel NodeModel BxPnpModel.

(** core.rs:37-50 [CoreNode], canadensis_can/src/queue/mod.rs:45-56 [SingleQueueDriver]; [cn_reads]: how often flushing has read the clock.  The counters of the transmitter are left out *)
Record can_node := CanNode { cn_core : core; cn_queue : array_queue; cn_receiver : can_rx; cn_driver : bx_driver; cn_reads : nat }.
(** core.rs:67-105 [new], [new_anonymous], with [CanReceiver::new] or [CanReceiver::new_anonymous] *)
Definition can_node_new (cap banks : nat) (k : tracker_kind) (P R : nat) (id : option N) : can_node :=
  CanNode (core_new TransportCan k P R id) (aq_new cap) (rx_new id) (bx_new banks) O.

(** The answers of transmitter and receiver in place of those in an operation *)
Definition with_answers (push : push_result) (sub : sub_result) (o : op) : op :=
  match o with
  | Publish lb subject payload e => Publish lb subject payload (Env (e_now e) (e_alloc e) push)
  | SendRequest lb service payload destination e => SendRequest lb service payload destination (Env (e_now e) (e_alloc e) push)
  | SendResponse token timeout payload e => SendResponse token timeout payload (Env (e_now e) (e_alloc e) push)
  | StartSendingRequests service timeout max priority _ => StartSendingRequests service timeout max priority sub
  | SubscribeMessage subject max timeout _ => SubscribeMessage subject max timeout sub
  | SubscribeRequest service max timeout _ => SubscribeRequest service max timeout sub
  | _ => o
  end.

(** canadensis_can/src/rx.rs:94-110, 132-153, 175-196 [subscribe_message], [subscribe_request], [subscribe_response]: the filters are applied when the subscription was made (422-436 [apply_frame_filters]) *)
Definition receiver_subscribe (p : port) (timeout : N) (max : nat) (mem : bool) (alloc : nat -> bool) (r : can_rx) (x : bx_driver) : res (can_rx * bx_driver * sub_result) :=
  match rx_subscribe_port r p timeout max mem with
  | (r', SubscribeOk) => match bx_filters (fst (rx_filters r')) (snd (rx_filters r')) alloc x with Ok x' => Ok (r', x', SubOk) | Panic => Panic end
  | (r', SubscribeMemory) => Ok (r', x, SubError EOutOfMemory)
  | (r', SubscribeAnonymous) => Ok (r', x, SubAnonymous)
  end.
(** rx.rs:112-117, 155-159, 197-201 [unsubscribe_message], [unsubscribe_request], [unsubscribe_response] *)
Definition receiver_unsubscribe (p : port) (alloc : nat -> bool) (r : can_rx) (x : bx_driver) : res (can_rx * bx_driver) :=
  let r' := rx_unsubscribe r p in
  match bx_filters (fst (rx_filters r')) (snd (rx_filters r')) alloc x with Ok x' => Ok (r', x') | Panic => Panic end.

(** The calls of an operation to transmitter and receiver, of which there is at most one; [mem] and [alloc] are the results of the allocations for a subscription and for the filters *)
Definition perform (mem : bool) (alloc : nat -> bool) (calls : list call) (z : can_node) : res (can_node * push_result * sub_result) :=
  let 'CanNode n q r x k := z in
  let subscribe p timeout max :=
    match receiver_subscribe p timeout max mem alloc r x with Ok (r', x', a) => Ok (CanNode n q r' x' k, PushOk, a) | Panic => Panic end in
  let unsubscribe p :=
    match receiver_unsubscribe p alloc r x with Ok (r', x') => Ok (CanNode n q r' x' k, PushOk, SubOk) | Panic => Panic end in
  match calls with
  | [] => Ok (z, PushOk, SubOk)
  | [CPush t] =>
      (* canadensis_can/src/tx.rs:57-83 [push] with the queue, queue/mod.rs:85-102 *)
      match push_inner (lift_reserve aq_ops) (lift_transmit aq_ops) 8 8 (Ok q) t with
      | Ok (Ok q', a) => Ok (CanNode n q' r x k, answer_of a, SubOk)
      | _ => Panic
      end
  | [CSubMessage s max timeout] => subscribe (PMsg s) timeout max
  | [CSubRequest s max timeout] => subscribe (PReq s) timeout max
  | [CSubResponse s max timeout] => subscribe (PResp s) timeout max
  | [CUnsubMessage s] => unsubscribe (PMsg s)
  | [CUnsubRequest s] => unsubscribe (PReq s)
  | [CUnsubResponse s] => unsubscribe (PResp s)
  | [CSetId id] => Ok (CanNode n q (rx_set_id r (Some id)) x k, PushOk, SubOk)   (* rx.rs:207-209 [set_id] *)
  | _ => Panic
  end.

(** What happens to a node *)
Inductive node_event :=
| EvCall (o : op) (mem : bool) (alloc : nat -> bool)               (* a function of the node is called *)
| EvFlush (fuel : nat)                                             (* [flush]; [fuel] is more than the number of rounds *)
| EvReceive (clock : nat -> N) (mem : nat -> bool)                 (* [receive] of the receiver is called: the times, and the results of allocations *)
| EvSend (m : nat) | EvArrive (b : bx_frame) | EvOverrun.          (* the hardware sends a frame, a frame is on the bus, frames were lost *)
Inductive node_result := ResCall (o : op) (calls : list call) (r : out) | ResFlush (r : flush_res) | ResReceive (r : reception) | ResNothing.

(** core.rs:211-464 (see NodeModel.core_step), 197-209 [receive], 429-431 [flush] *)
Definition can_node_step (script : nat -> N * list nat) (ev : node_event) (z : can_node) : res (can_node * node_result) :=
  let 'CanNode n q r x k := z in
  match ev with
  | EvCall o mem alloc =>
      let '(_, calls, _) := core_step n o in
      match perform mem alloc calls z with
      | Panic => Panic
      | Ok (z', push, sub) =>
          let o' := with_answers push sub o in
          match core_step n o' with
          | (_, _, OPanic) => Panic
          | (n', calls', out) => Ok (CanNode n' (cn_queue z') (cn_receiver z') (cn_driver z') (cn_reads z'), ResCall o' calls' out)
          end
      end
  | EvFlush fuel =>
      match bx_flush script fuel q (Ok x, k) with
      | Ok (Some (q', (Ok x', k'), a)) => Ok (CanNode n q' r x' k', ResFlush a)
      | _ => Panic
      end
  | EvReceive clock mem =>
      match bx_pnp_receive clock mem (S (length (d_fifo (bx_can x)) + length (bx_loopback x))) 0 r x with
      | Ok (r', x', a) => Ok (CanNode n q r' x' k, ResReceive a)
      | Panic => Panic
      end
  | EvSend m => Ok (CanNode n q r (on_device (dev_send m) x) k, ResNothing)
  | EvArrive b => Ok (CanNode n q r (on_device (dev_arrive b) x) k, ResNothing)
  | EvOverrun => Ok (CanNode n q r (on_device dev_overrun x) k, ResNothing)
  end.
