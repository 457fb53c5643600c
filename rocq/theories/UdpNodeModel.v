(** Model of a whole UDP node: canadensis/src/node/core.rs [CoreNode] with [UdpTransmitter] and [UdpReceiver].

    - As in CanNodeModel, the answers that NodeModel takes as inputs are those of the modelled transmitter and receiver (UdpModel).
    - The driver is a socket: it accepts datagrams for a group or refuses them, joins groups or refuses to, and hands out the datagrams that have arrived.
    - The clock and the results of allocations are inputs.
    - Simplification: the socket does not report an error when it is read. *)
From Verif Require Import Base CoreModel CanNodeModel UdpModel NodeModel.

(** core.rs:37-50 [CoreNode]; [ip_in]: the datagrams that have arrived and have not been read, [ip_out]: those that the socket has accepted, with the address of their group, oldest first *)
Record ip_node := IpNode { ip_core : core; ip_receiver : urx; ip_in : list (list N); ip_out : list (N * list N) }.
(** core.rs:67-105 [new], [new_anonymous], with [UdpReceiver::new] (canadensis_udp/src/rx.rs:44-53) *)
Definition ip_node_new (k : tracker_kind) (P R : nat) (id : option N) : ip_node := IpNode (core_new Transport64 k P R id) (urx_new id) [] [].

(** What the receiver's answer is for the node *)
Definition ip_answer (o : usubres) : sub_result :=
  match o with UdpModel.SubOk => SubOk | UdpModel.SubSocket => SubError (EOther 0) | UdpModel.SubAnonymous => SubAnonymous end.

(** The calls of an operation to transmitter and receiver, of which there is at most one; [env k]: the clock before the [k]-th datagram is sent, and whether the socket accepts it; [group]: whether it joins or leaves a group *)
Definition ip_perform (mtu : nat) (env : nat -> N * bool) (group : bool) (calls : list call) (z : ip_node) : res (ip_node * push_result * sub_result) :=
  let 'IpNode n r i o := z in
  let subscribe p max timeout := let '(r', a, _) := udp_subscribe r p max timeout group in Ok (IpNode n r' i o, PushOk, ip_answer a) in
  let unsubscribe p := let (r', _) := udp_unsubscribe r p group in Ok (IpNode n r' i o, PushOk, SubOk) in
  match calls with
  | [] => Ok (z, PushOk, SubOk)
  | [CPush t] =>
      (* canadensis_udp/src/tx.rs:93-156 [push] *)
      match udp_push mtu env t with
      | Ok (ip, sent, ok) => Ok (IpNode n r i (o ++ map (pair ip) sent), if ok then PushOk else PushError (EOther 0), SubOk)
      | Panic => Panic
      end
  | [CSubMessage s max timeout] => subscribe (PMsg s) max timeout
  | [CSubRequest s max timeout] => subscribe (PReq s) max timeout
  | [CSubResponse s max timeout] => subscribe (PResp s) max timeout
  | [CUnsubMessage s] => unsubscribe (PMsg s)
  | [CUnsubRequest s] => unsubscribe (PReq s)
  | [CUnsubResponse s] => unsubscribe (PResp s)
  | [CSetId id] => Ok (IpNode n (udp_set_id r (Some id)) i o, PushOk, SubOk)
  | _ => Panic
  end.

(** What the socket hands out: as many datagrams as there are answers, then it would block; an answer: the clock, and whether there is memory for a payload and for a session *)
Definition ip_packets (answers : list (N * bool * bool)) (ds : list (list N)) : list udgram :=
  map (fun e => UPacket (snd e) (fst (fst (fst e))) (snd (fst (fst e))) (snd (fst e))) (combine answers ds).

(** What happens to a node *)
Inductive ip_event :=
| IpCall (o : op) (env : nat -> N * bool) (group : bool)      (* a function of the node is called *)
| IpFlush                                                     (* [flush]: everything has been sent (tx.rs:158-166) *)
| IpReceive (answers : list (N * bool * bool))                (* [receive] of the receiver is called *)
| IpArrive (d : list N).                                      (* a datagram arrives *)
Inductive ip_result := IrCall (o : op) (calls : list call) (r : out) | IrReceive (o : ureceived) | IrNothing.

(** core.rs:211-464 (see NodeModel.core_step), 197-209 [receive], 429-431 [flush]; [mtu]: of the transmitter, [rmtu]: of the receiver *)
Definition ip_node_step (mtu rmtu : nat) (ev : ip_event) (z : ip_node) : res (ip_node * ip_result) :=
  let 'IpNode n r i o := z in
  match ev with
  | IpCall op env group =>
      let '(_, calls, _) := core_step n op in
      match ip_perform mtu env group calls z with
      | Panic => Panic
      | Ok (z', push, sub) =>
          let op' := with_answers push sub op in
          match core_step n op' with
          | (_, _, OPanic) => Panic
          | (n', calls', out) => Ok (IpNode n' (ip_receiver z') (ip_in z') (ip_out z'), IrCall op' calls' out)
          end
      end
  | IpFlush => Ok (z, IrNothing)
  | IpReceive answers =>
      let ds := ip_packets answers i in
      match udp_receive rmtu r ds with
      | Ok (r', a, rest) => Ok (IpNode n r' (skipn (length ds - length rest) i) o, IrReceive a)
      | Panic => Panic
      end
  | IpArrive d => Ok (IpNode n r (i ++ [d]) o, IrNothing)
  end.
