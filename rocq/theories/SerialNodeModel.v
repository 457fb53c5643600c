(** Model of a whole serial node: canadensis/src/node/core.rs [CoreNode] with [SerialTransmitter] and [SerialReceiver].

    - As in CanNodeModel, the answers that NodeModel takes as inputs are those of the modelled transmitter and receiver (SerialModel).
    - The driver is a serial link: it accepts some bytes and then would block, and it hands out the bytes that have arrived.
    - The time and the results of allocations are inputs. *)
From Verif Require Import Base CoreModel CanNodeModel NodeModel SerialModel.

(** core.rs:37-50 [CoreNode]; the queue is that of the transmitter; [sn_in]: the bytes that have arrived and have not been read, [sn_out]: the bytes that the driver has accepted, oldest first *)
Record serial_node := SerialNode { sn_core : core; sn_queue : list N; sn_receiver : rx; sn_in : list N; sn_out : list N }.
(** core.rs:67-105 [new], [new_anonymous], with [SerialReceiver::new] or [SerialReceiver::new_anonymous] *)
Definition serial_node_new (k : tracker_kind) (P R : nat) (id : option N) : serial_node := SerialNode (core_new Transport64 k P R id) [] (rx_new id) [] [].

(** What the receiver's answer is for the node *)
Definition serial_answer (o : rxout) : sub_result :=
  match o with SerialModel.OMemory => SubError EOutOfMemory | SerialModel.OAnonymous => SubAnonymous | _ => SubOk end.

(** The calls of an operation to transmitter and receiver, of which there is at most one; [mem]: the result of the allocation *)
Definition serial_perform (cap : nat) (mem : bool) (calls : list call) (z : serial_node) : res (serial_node * push_result * sub_result) :=
  let 'SerialNode n q r i o := z in
  let subscribe p max timeout := let '(r', a) := rx_subscribe r p max timeout mem in Ok (SerialNode n q r' i o, PushOk, serial_answer a) in
  let unsubscribe p := Ok (SerialNode n q (rx_unsubscribe r p) i o, PushOk, SubOk) in
  match calls with
  | [] => Ok (z, PushOk, SubOk)
  | [CPush t] =>
      (* canadensis_serial/src/tx.rs:57-105 [push] *)
      match serial_push cap q t mem with
      | Ok (true, q') => Ok (SerialNode n q' r i o, PushOk, SubOk)
      | Ok (false, q') => Ok (SerialNode n q' r i o, PushError EOutOfMemory, SubOk)
      | Panic => Panic
      end
  | [CSubMessage s max timeout] => subscribe (PMsg s) max timeout
  | [CSubRequest s max timeout] => subscribe (PReq s) max timeout
  | [CSubResponse s max timeout] => subscribe (PResp s) max timeout
  | [CUnsubMessage s] => unsubscribe (PMsg s)
  | [CUnsubRequest s] => unsubscribe (PReq s)
  | [CUnsubResponse s] => unsubscribe (PResp s)
  | [CSetId id] => Ok (SerialNode n q (rx_set_id r (Some id)) i o, PushOk, SubOk)
  | _ => Panic
  end.

(** The driver's [send_byte]: it accepts so many bytes, then would block *)
Definition link_send (d : nat * list N) (b : N) : (nat * list N) * dres := match d with (O, out) => ((O, out), DWouldBlock) | (S k, out) => ((k, out ++ [b]), DOk) end.
(** The driver's [receive_byte]: it hands out at most [limit] bytes, then would block; the clock and the allocations are asked for each byte *)
Definition link_bytes (limit : nat) (clock : nat -> N) (mem smem : nat -> bool) (bytes : list N) : list dbyte :=
  map (fun e => BByte (snd e) (clock (fst e)) (mem (fst e)) (smem (fst e))) (combine (seq 0 limit) bytes).

(** What happens to a node *)
Inductive serial_event :=
| SnCall (o : op) (mem : bool)                                                             (* a function of the node is called *)
| SnFlush (k : nat)                                                                        (* [flush], while the driver accepts [k] bytes *)
| SnReceive (now : N) (limit : nat) (clock : nat -> N) (mem smem : nat -> bool)            (* [receive] of the receiver is called *)
| SnArrive (b : N).                                                                        (* a byte arrives *)
Inductive serial_result := SrCall (o : op) (calls : list call) (r : out) | SrFlush (r : dres) | SrReceive (o : rxout) | SrNothing.

(** core.rs:211-464 (see NodeModel.core_step), 197-209 [receive], 429-431 [flush] *)
Definition serial_node_step (cap : nat) (ev : serial_event) (z : serial_node) : res (serial_node * serial_result) :=
  let 'SerialNode n q r i o := z in
  match ev with
  | SnCall op mem =>
      let '(_, calls, _) := core_step n op in
      match serial_perform cap mem calls z with
      | Panic => Panic
      | Ok (z', push, sub) =>
          let op' := with_answers push sub op in
          match core_step n op' with
          | (_, _, OPanic) => Panic
          | (n', calls', out) => Ok (SerialNode n' (sn_queue z') (sn_receiver z') (sn_in z') (sn_out z'), SrCall op' calls' out)
          end
      end
  | SnFlush k => let '(q', (_, o'), a) := serial_flush link_send (k, o) q in Ok (SerialNode n q' r i o', SrFlush a)
  | SnReceive now limit clock mem smem =>
      let ds := link_bytes limit clock mem smem i in
      match receive r now ds with
      | Ok (r', a, rest) => Ok (SerialNode n q r' (skipn (length ds - length rest) i) o, SrReceive a)
      | Panic => Panic
      end
  | SnArrive b => Ok (SerialNode n q r (i ++ [b]) o, SrNothing)
  end.
