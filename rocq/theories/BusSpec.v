(** Specification of transfers over a CAN bus: a node with an output queue and the bxCAN driver, and another one with the bxCAN driver and a receiver. *)
From Verif Require Import Base CoreModel CanIdModel CanSpec CanTxModel CanTxSpec CanQueueModel CanQueueSpec CanRxModel CanRxSpec CanIdProps BxModel BxSpec.

(** A node that sends transfers: [sender cap banks script ts q w] when the transfers [ts] have been taken by its queue of capacity [cap], in this order, with any other transfers refused,
    any calls to [flush] in between, the hardware sending frames at any time, and the driver used to receive as well. *)
Inductive sender (cap banks : nat) (script : nat -> N * list nat) : list transfer -> array_queue -> res bx_driver * nat -> Prop :=
| sender_new : sender cap banks script [] (aq_new cap) (Ok (bx_new banks), O)
| sender_push ts q w t q' : sender cap banks script ts q w -> can_header_ok (t_header t) ->
    push_inner (lift_reserve aq_ops) (lift_transmit aq_ops) 8 8 (Ok q) t = Ok (Ok q', PushOk) -> sender cap banks script (ts ++ [t]) q' w
| sender_refused ts q w t q' r : sender cap banks script ts q w -> can_header_ok (t_header t) ->
    push_inner (lift_reserve aq_ops) (lift_transmit aq_ops) 8 8 (Ok q) t = Ok (Ok q', r) -> r <> PushOk -> sender cap banks script ts q' w
| sender_flush ts q w fuel q' w' r : sender cap banks script ts q w -> bx_flush script fuel q w = Ok (Some (q', w', r)) -> sender cap banks script ts q' w'
| sender_send ts q x k m : sender cap banks script ts q (Ok x, k) -> sender cap banks script ts q (Ok (on_device (dev_send m) x), k)
| sender_receive ts q x k o x' out : sender cap banks script ts q (Ok x, k) -> receives o -> bx_step o x = Ok (x', out) -> sender cap banks script ts q (Ok x', k).

(** Transfers and frames from node [s] on port [p] *)
Definition comes_from (p : port) (s : N) (t : transfer) : bool :=
  port_eqb (h_port (t_header t)) p && match h_source (t_header t) with Some n => n =? s | None => false end.
Definition wire_by (p : port) (s : N) (b : bx_frame) : bool := b_extended b && sent_by p s (Frame 0 (b_id b) false []).

(** Each transfer ID is followed by the next one *)
Fixpoint consecutive (l : list N) : Prop :=
  match l with a :: (b :: _) as r => b = tid_incr a /\ consecutive r | _ => True end.

(** What happens on the bus, as far as a driver is concerned *)
Definition on_bus (ops : list bx_op) : list bx_frame := flat_map (fun o => match o with OpArrive b => [b] | _ => [] end) ops.
(** The filters of a driver are first set, and then changed only, for node [local] and ports that include [p], or for all frames *)
Definition filters_for (local : option N) (p : port) (o : bx_op) : Prop :=
  match o with OpFilters l ps _ => l = local /\ In p ps | _ => True end.
Definition filters_ok (o : bx_op) : Prop := match o with OpFilters _ _ _ => op_ok o | _ => True end.
Definition sets_filters (o : bx_op) : Prop := match o with OpFilters _ _ _ | OpAcceptAll => True | _ => False end.
(** It sends no frames in the name of node [s] on port [p] *)
Definition not_from (p : port) (s : N) (o : bx_op) : Prop := match o with OpTransmit _ f => sent_by p s f = false | _ => True end.

(** The operations on a receiver: frames, with enough memory, and changes of subscriptions to other ports than [p] *)
Definition leaves (p : port) (op : can_op) : Prop :=
  match op with CFrame _ mem => mem = true | CSub p' _ _ _ | CUnsub p' => p' <> p | CSetId _ => False end.
Definition given_frames (ops : list can_op) : list frame := flat_map (fun op => match op with CFrame f _ => [f] | _ => [] end) ops.
(** The transfers from [s] on [p] that were delivered *)
Definition delivered (p : port) (s : N) (o : can_out) : list transfer :=
  match o with CGot (RxTransfer t) => if comes_from p s t then [t] else [] | _ => [] end.
(** [d] is [t] as it is received: with another time stamp, not as a copy, and with at most [max] bytes *)
Definition received_as (max : nat) (t d : transfer) : Prop :=
  (exists now, t_header d = h_set_ts (t_header t) now) /\ t_loopback d = false /\ t_payload d = firstn max (t_payload t).
