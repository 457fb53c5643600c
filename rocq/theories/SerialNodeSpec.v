(** Specification of whole serial nodes: histories, what a node has received in them, and when it listens to another node. *)
From Verif Require Import Base CoreModel HeaderSpec CobsSpec NodeModel NodeSpec NetSpec CanNodeModel CanNodeSpec SerialModel SerialNodeModel.

(** What the Rust types allow *)
Definition serial_call_fine (o : op) : Prop :=
  match o with
  | StartPublishing subject timeout priority => subject <= 8191 /\ priority <= 7
  | Publish _ subject payload e => subject <= 8191 /\ bytes_ok payload
  | StartSendingRequests service timeout _ priority _ => service <= 511 /\ priority <= 7
  | SendRequest _ service payload destination e => service <= 511 /\ destination < 65535 /\ bytes_ok payload
  | SendResponse token timeout payload e => rt_service token <= 511 /\ rt_client token < 65535 /\ rt_transfer token < 2 ^ 64 /\ rt_priority token <= 7 /\ bytes_ok payload
  | SetNodeId id => id < 65535
  | _ => True
  end.
Definition serial_fine (ev : serial_event) : Prop := match ev with SnCall o _ => serial_call_fine o | _ => True end.

(** Histories from a state, latest first *)
Inductive serial_path (cap : nat) (z0 : serial_node) : list (serial_event * serial_result) -> serial_node -> Prop :=
| spath_here : serial_path cap z0 [] z0
| spath_step h z ev z' res : serial_path cap z0 h z -> serial_fine ev -> serial_node_step cap ev z = Ok (z', res) -> serial_path cap z0 ((ev, res) :: h) z'.

(** The functions called, latest first *)
Definition serial_calls (h : list (serial_event * serial_result)) : list entry := flat_map (fun e => match snd e with SrCall o calls r => [(o, calls, r)] | _ => [] end) h.
(** The transfers that the node has received (and given to its handler), and the bytes that have arrived, oldest first *)
Fixpoint serial_got (h : list (serial_event * serial_result)) : list transfer :=
  match h with [] => [] | (_, SrReceive (ODeliver t)) :: h' => serial_got h' ++ [t] | _ :: h' => serial_got h' end.
Fixpoint serial_bytes (h : list (serial_event * serial_result)) : list N :=
  match h with [] => [] | (SnArrive b, _) :: h' => serial_bytes h' ++ [b] | _ :: h' => serial_bytes h' end.

(** A node that has run since it was made, and kept its ID *)
Definition serial_running (cap : nat) (k : tracker_kind) (P R : nat) (id : N) (h : list (serial_event * serial_result)) (z : serial_node) : Prop :=
  kind_ok Transport64 k /\ id < 65535 /\ serial_path cap (serial_node_new k P R (Some id)) h z /\ keeps_id (serial_calls h).

(** Reception does not fail for lack of memory for a payload *)
Definition payloads_fit (h : list (serial_event * serial_result)) : Prop := forall now limit clock mem smem res, In (SnReceive now limit clock mem smem, res) h -> forall k, mem k = true.
(** In the history [h] of a node, made with the ID [id0] or without one, the node listens: it has done anything before, and may have set its ID; the last byte that it has read, if any, ended a frame.  Then it subscribes to [p]; it keeps
    this subscription, and the ID [node] that it has now.  Since then the bytes [bytes] have arrived, and the node has read all of them; [ts] are the transfers that it has received. *)
Definition serial_listened (cap : nat) (k : tracker_kind) (P R : nat) (id0 : option N) (h : list (serial_event * serial_result)) (z : serial_node) (node : option N) (p : port) (max : nat) (bytes : list N) (ts : list transfer) : Prop :=
  exists h1 z1 ev o calls r z2 h2, h = h2 ++ (ev, SrCall o calls r) :: h1 /\
    serial_path cap (serial_node_new k P R id0) h1 z1 /\ id_after id0 (serial_calls h1) = node /\ sn_in z1 = [] /\ last (serial_bytes h1) 0 = 0 /\
    serial_fine ev /\ serial_node_step cap ev z1 = Ok (z2, SrCall o calls r) /\ subscribes p max (o, calls, r) /\
    serial_path cap z2 h2 z /\ keeps_port p (serial_calls h2) /\ keeps_id (serial_calls h2) /\ payloads_fit h2 /\ sn_in z = [] /\
    serial_bytes h2 = bytes /\ ts = serial_got h2.

(** Each number is greater than that before *)
Fixpoint increasing (l : list N) : Prop := match l with a :: (b :: _) as r => a < b /\ increasing r | _ => True end.
(** No frame has a zero that the encoding loses (see C03) *)
Definition no_lost_zero (h : list entry) : Prop := forall o calls r t, In (o, calls, r) h -> In (CPush t) calls -> ~ swallows_zero (frame_data t).

(** Tokens for requests come from [start_sending_requests], responses are sent by a node with an ID *)
Definition serial_allowed (id : option N) (h : list entry) (ev : serial_event) : Prop := match ev with SnCall o _ => call_allowed id h o | _ => True end.
