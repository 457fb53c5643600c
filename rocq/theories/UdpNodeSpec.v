(** Specification of whole UDP nodes: histories, what a node has received in them, and when it listens to another node. *)
From Verif Require Import Base CoreModel HeaderSpec NodeModel NodeSpec NetSpec CanNodeModel CanNodeSpec SerialNodeSpec UdpModel UdpSpec NodeModel UdpNodeModel.

(** What the Rust types allow, and payloads whose datagrams can be numbered with 31 bits *)
Definition payload_of (o : op) : list N := match o with Publish _ _ payload _ | SendRequest _ _ payload _ _ | SendResponse _ _ payload _ => payload | _ => [] end.
Definition ip_fine (mtu : nat) (ev : ip_event) : Prop :=
  match ev with
  | IpCall o _ _ => serial_call_fine o /\ N.of_nat (length (payload_of o)) + 4 < 2 ^ 31 * N.of_nat (mtu - 24)
  | IpReceive answers => Forall (fun a => fst (fst a) < 2 ^ 32) answers
  | IpArrive d => bytes_ok d
  | IpFlush => True
  end.

(** Histories from a state, latest first *)
Inductive ip_path (mtu rmtu : nat) (z0 : ip_node) : list (ip_event * ip_result) -> ip_node -> Prop :=
| ippath_here : ip_path mtu rmtu z0 [] z0
| ippath_step h z ev z' res : ip_path mtu rmtu z0 h z -> ip_fine mtu ev -> ip_node_step mtu rmtu ev z = Ok (z', res) -> ip_path mtu rmtu z0 ((ev, res) :: h) z'.

(** The functions called, latest first *)
Definition ip_calls (h : list (ip_event * ip_result)) : list entry := flat_map (fun e => match snd e with IrCall o calls r => [(o, calls, r)] | _ => [] end) h.
(** The transfers that the node has received (and given to its handler), the datagrams that have arrived, and the readings of the clock for reception, oldest first *)
Fixpoint ip_got (h : list (ip_event * ip_result)) : list transfer :=
  match h with [] => [] | (_, IrReceive (RTransfer t)) :: h' => ip_got h' ++ [t] | _ :: h' => ip_got h' end.
Fixpoint ip_arrived (h : list (ip_event * ip_result)) : list (list N) :=
  match h with [] => [] | (IpArrive d, _) :: h' => ip_arrived h' ++ [d] | _ :: h' => ip_arrived h' end.
Fixpoint ip_clock (h : list (ip_event * ip_result)) : list N :=
  match h with [] => [] | (IpReceive answers, _) :: h' => ip_clock h' ++ map (fun a => fst (fst a)) answers | _ :: h' => ip_clock h' end.

(** A node that has run since it was made, and kept its ID; datagrams have room for a header, a CRC and more *)
Definition ip_running (mtu rmtu : nat) (k : tracker_kind) (P R : nat) (id : N) (h : list (ip_event * ip_result)) (z : ip_node) : Prop :=
  kind_ok Transport64 k /\ id < 65535 /\ (28 < mtu)%nat /\ ip_path mtu rmtu (ip_node_new k P R (Some id)) h z /\ keeps_id (ip_calls h).
(** For each transfer on the port, each datagram was sent before the deadline, and the socket accepted it *)
Definition sent_in_time (p : port) (h : list (ip_event * ip_result)) : Prop :=
  forall o env group o' calls r t, In (IpCall o env group, IrCall o' calls r) h -> In (CPush t) calls -> h_port (t_header t) = p ->
    forall k, t_lt (fst (env k)) (h_ts (t_header t)) = true /\ snd (env k) = true.

(** The datagram is from node [s] on the port [p] *)
Definition from_node (rmtu : nat) (p : port) (s : N) (d : list N) : bool := match parsed rmtu d with Some (f, _) => is_fromb p s f | None => false end.
(** No reading of the clock is before an earlier one *)
Definition clock_runs (l : list N) : Prop := ForallOrdPairs (fun a b => t_since b a <> None) l.
(** The readings of the clock that come with an event *)
Definition readings (ev : ip_event) : list N := match ev with IpReceive answers => map (fun a => fst (fst a)) answers | _ => [] end.
(** In the history [h] of a node the node listens: it has done anything before, and has read all that had arrived.  Then it subscribes to [p], and it keeps this subscription.  Since then the datagrams [arrived] have arrived, among them any
    from others, and the node has read all of them while the clock did not go back and there was memory; [ts] are the transfers that it has received. *)
Definition ip_listened (mtu rmtu : nat) (k : tracker_kind) (P R : nat) (id0 : option N) (h : list (ip_event * ip_result)) (z : ip_node) (p : port) (max : nat) (arrived : list (list N)) (ts : list transfer) : Prop :=
  exists h1 z1 ev o calls r z2 h2, h = h2 ++ (ev, IrCall o calls r) :: h1 /\
    ip_path mtu rmtu (ip_node_new k P R id0) h1 z1 /\ ip_in z1 = [] /\
    ip_fine mtu ev /\ ip_node_step mtu rmtu ev z1 = Ok (z2, IrCall o calls r) /\ subscribes p max (o, calls, r) /\
    ip_path mtu rmtu z2 h2 z /\ keeps_port p (ip_calls h2) /\ ip_in z = [] /\ clock_runs (ip_clock h2) /\
    (forall answers res, In (IpReceive answers, res) h2 -> Forall (fun a => snd (fst a) = true /\ snd a = true) answers) /\
    ip_arrived h2 = arrived /\ ts = ip_got h2.

(** The datagrams sent to the group of the subject have at least 28 bytes *)
Definition long_in (subject : N) (out : list (N * list N)) : Prop := forall d, In (ip_of_address (AMulticast subject), d) out -> (28 <= length d)%nat.
(** What a program may do next with a node made with [id]: the calls that NodeSpec allows *)
Definition ip_allowed (id : option N) (h : list entry) (ev : ip_event) : Prop := match ev with IpCall o _ _ => call_allowed id h o | _ => True end.
