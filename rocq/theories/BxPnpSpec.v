(** Specification of the plug-and-play client for bxCAN devices. *)
From Verif Require Import Base CoreModel CanSpec CanTxModel CanTxSpec CanRxModel CanRxSpec BxModel BxSpec BusSpec NodeModel NodeSpec BasicModel BasicSpec PnpModel PnpSpec BxPnpModel.

(** The subject of requests and answers: 8166 (uavcan.pnp.NodeIDAllocationData.1.0) *)
Definition pnp_port : port := PMsg 8166.

(** Times are those of the clock, and frames consist of bytes *)
Definition event_ok (e : pnp_event) : Prop :=
  match e with
  | EPublish now _ => now < 2 ^ 32
  | EHandle clock _ => forall k, clock k < 2 ^ 32
  | EArrive b => forall data, b_data b = Some data -> bytes_ok data
  | ESend _ | EOverrun => True
  end.
(** [es] happen to a new client with the unique ID [u], on a device with [banks] filter banks; [c] is the client after that, and [outs] are the values returned *)
Definition pnp_history (banks : nat) (u : list N) (es : list pnp_event) (c : bx_pnp) (outs : list (option N)) : Prop :=
  (1 <= banks)%nat /\ unique_id_ok u /\ Forall event_ok es /\
  exists mem alloc c0, bx_pnp_new banks u mem alloc = Ok (Some c0) /\ pnp_run es c0 = Ok (c, outs).

(** The calls of [publish_request] *)
Definition is_request (e : pnp_event) : bool := match e with EPublish _ _ => true | _ => false end.
(** The frames on the bus *)
Definition arrivals (es : list pnp_event) : list bx_frame := flat_map (fun e => match e with EArrive b => [b] | _ => [] end) es.
(** Allocations succeed *)
Definition enough_memory (e : pnp_event) : Prop := match e with EHandle _ mem => forall k, mem k = true | _ => True end.
(** The node IDs returned *)
Definition returned (outs : list (option N)) : list N := flat_map (fun o => match o with Some id => [id] | None => [] end) outs.

(** What the driver of the device does: it receives, and the hardware works *)
Definition listens (o : bx_op) : Prop := match o with OpReceive _ | OpSend _ | OpArrive _ | OpOverrun => True | _ => False end.
(** What the receiver does: it is given frames *)
Definition listening (op : can_op) : Prop := match op with CFrame _ _ => True | _ => False end.
(** The transfers delivered *)
Definition transfers (couts : list can_out) : list transfer := flat_map (fun o => match o with CGot (RxTransfer t) => [t] | _ => [] end) couts.
(** The node IDs offered to the node with the unique ID [u] by transfers, in this order *)
Inductive offered (u : list N) : list transfer -> list N -> Prop :=
| offered_none : offered u [] []
| offered_id t ts id ids : offers TransportCan V1 u (t_payload t) id -> offered u ts ids -> offered u (t :: ts) (id :: ids)
| offered_not t ts ids : (forall id, ~ offers TransportCan V1 u (t_payload t) id) -> offered u ts ids -> offered u (t :: ts) ids.

(** The frame of a request at the time [now]: priority nominal, no source, transfer ID 0, seven bytes with the hash of the unique ID *)
Definition request_frame (u : list N) (now : N) (f : frame) : Prop :=
  exists p id, length p = 7%nat /\ bytes_ok p /\ reading V1 p = Some (Hash (crc64we u mod 2 ^ 48), None) /\
    id_means id (HMsg (MsgH ((now + 1000000) mod 2 ^ 32) 0 4 8166 None)) /\ f = Frame ((now + 1000000) mod 2 ^ 32) id false (p ++ [tail_byte true true true 0]).

(** First frames of transfers of several frames have at least two bytes and the tail byte *)
Definition first_long (b : bx_frame) : Prop :=
  forall data toggle tid, b_data b = Some data -> has_tail (Frame 0 (b_id b) false data) true false toggle tid -> (2 <= length (removelast data))%nat.
