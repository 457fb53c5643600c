(** Model of canadensis_bxcan/src/pnp.rs: the plug-and-play client for bxCAN devices.

    - It combines [PnpClient] (PnpModel), [CanTransmitter] (CanTxModel), [CanReceiver] (CanRxModel), [SingleFrameQueue] (CanQueueModel) and [BxCanDriver] (BxModel).
    - Messages are those of version 1 of the protocol: others do not fit in one frame of Classic CAN.
    - The results of reading the clock and of allocations are inputs. *)
From Verif Require Import Base CoreModel CanIdModel CanTxModel CanQueueModel CanRxModel BxModel NodeModel EncModel GenModel DataTypes BasicModel PnpModel.

(** pnp.rs:13-24 [BxCanPnpClient], canadensis_pnp_client/src/lib.rs:29-39 [PnpClient]; the driver is a queue for one frame before the driver of the device *)
Record bx_pnp := BxPnp {
  bp_unique : list N; bp_publisher : anonymous; bp_transmitter : can_tx; bp_receiver : can_rx;
  bp_queue : option frame; bp_driver : bx_driver }.

(** pnp.rs:33-44 [new], canadensis_pnp_client/src/lib.rs:52-71 [PnpClient::new], canadensis_can/src/rx.rs:94-110 [subscribe_message]; [None] is an error, the memory was
    not sufficient; [alloc] is for the filters of the device *)
Definition bx_pnp_new (banks : nat) (unique_id : list N) (mem : bool) (alloc : nat -> bool) : res (option bx_pnp) :=
  match rx_subscribe_port (rx_new None) (PMsg (allocation_subject V1)) 1000000 9 mem with
  | (r, SubscribeOk) =>
      match bx_filters (fst (rx_filters r)) (snd (rx_filters r)) alloc (bx_new banks) with
      | Ok x => Ok (Some (BxPnp unique_id pnp_client_new (can_tx_new 8) r None x))
      | Panic => Panic
      end
  | _ => Ok None
  end.

(** The result of [push] as the publisher sees it *)
Definition answer_of (r : push_res) : push_result :=
  match r with
  | CanTxModel.PushOk => NodeModel.PushOk
  | PushMemory => PushError EOutOfMemory
  | CanTxModel.PushWouldBlock => NodeModel.PushWouldBlock
  | PushDriver => PushError (EOther 0)
  end.
(** pnp.rs:49-51 [publish_request], canadensis_pnp_client/src/lib.rs:74-84 [send_request]: the publisher gives a transfer to the transmitter, and this gives its frames to
    the queue.  First, the transfer; then, what becomes of the publisher with the answer of the transmitter *)
Definition bx_pnp_publish (now : N) (alloc : bool) (c : bx_pnp) : res bx_pnp :=
  let send answer := pnp_client_send TransportCan (bp_unique c) (bp_publisher c) (tx_mtu (bp_transmitter c) - 1) (Env now alloc answer) in
  match send NodeModel.PushOk with
  | Ok (_, [CPush t]) =>
      match can_push (lift_reserve sq_ops) (lift_transmit sq_ops) 8 (bp_transmitter c) (Ok (bp_queue c)) t with
      | Ok (tx, Ok q, r) =>
          match send (answer_of r) with
          | Ok (publisher, _) => Ok (BxPnp (bp_unique c) publisher tx (bp_receiver c) q (bp_driver c))
          | Panic => Panic
          end
      | _ => Panic
      end
  | _ => Panic
  end.

(** What [CanReceiver::receive] returns *)
Inductive reception := Received (t : transfer) | NothingReceived | ReceptionError.
(** canadensis_can/src/rx.rs:62-81 [receive] with this driver (canadensis_can/src/queue/mod.rs:118-120); the [k]th frame is received when it is [clock k], and [mem k]
    says whether an allocation for it succeeds.  [fuel] is more than the number of frames *)
Fixpoint bx_pnp_receive (clock : nat -> N) (mem : nat -> bool) (fuel k : nat) (r : can_rx) (x : bx_driver) : res (can_rx * bx_driver * reception) :=
  match fuel with
  | O => Panic
  | S fuel =>
      match bx_receive (clock k) x with
      | (x', RxWouldBlock) => Ok (r, x', NothingReceived)
      | (x', RxOverrun) => Ok (r, x', ReceptionError)
      | (x', RxFrame f) =>
          match accept_frame r (mem k) f with
          | Panic => Panic
          | Ok (r', RxNone) => bx_pnp_receive clock mem fuel (S k) r' x'
          | Ok (r', RxTransfer t) => Ok (r', x', Received t)
          | Ok (r', RxMemory) => Ok (r', x', ReceptionError)
          end
      end
  end.
(** pnp.rs:54-59 [handle_incoming_frames], canadensis_pnp_client/src/lib.rs:88-104 [receive] *)
Definition bx_pnp_handle (clock : nat -> N) (mem : nat -> bool) (c : bx_pnp) : res (bx_pnp * option N) :=
  let fuel := S (length (d_fifo (bx_can (bp_driver c))) + length (bx_loopback (bp_driver c))) in
  match bx_pnp_receive clock mem fuel 0 (bp_receiver c) (bp_driver c) with
  | Panic => Panic
  | Ok (r, x, o) =>
      let c' := BxPnp (bp_unique c) (bp_publisher c) (bp_transmitter c) r (bp_queue c) x in
      match o with
      | Received t => bind (pnp_client_receive TransportCan (bp_unique c) (t_payload t)) (fun id => Ok (c', id))
      | NothingReceived | ReceptionError => Ok (c', None)
      end
  end.
(** pnp.rs:62-66 [free]: the device *)
Definition bx_pnp_free (c : bx_pnp) : device := bx_can (bp_driver c).

(** What happens to a client: its functions are called, the device sends the frame in a mailbox, frames arrive or are lost *)
Inductive pnp_event :=
| EPublish (now : N) (alloc : bool) | EHandle (clock : nat -> N) (mem : nat -> bool)
| ESend (m : nat) | EArrive (b : bx_frame) | EOverrun.
Definition pnp_step (e : pnp_event) (c : bx_pnp) : res (bx_pnp * option N) :=
  let hardware g := Ok (BxPnp (bp_unique c) (bp_publisher c) (bp_transmitter c) (bp_receiver c) (bp_queue c) (on_device g (bp_driver c)), None) in
  match e with
  | EPublish now alloc => bind (bx_pnp_publish now alloc c) (fun c' => Ok (c', None))
  | EHandle clock mem => bx_pnp_handle clock mem c
  | ESend m => hardware (dev_send m)
  | EArrive b => hardware (dev_arrive b)
  | EOverrun => hardware dev_overrun
  end.
(** The client after the events, and what the calls have returned *)
Fixpoint pnp_run (es : list pnp_event) (c : bx_pnp) : res (bx_pnp * list (option N)) :=
  match es with
  | [] => Ok (c, [])
  | e :: r => bind (pnp_step e c) (fun x => bind (pnp_run r (fst x)) (fun y => Ok (fst y, snd x :: snd y)))
  end.
