(** Specification of node histories. *)
From Verif Require Import Base CoreModel NodeModel.

(** What happened: operation, calls made to transmitter and receiver, result; latest first. *)
Definition entry : Type := op * list call * out.
Inductive core_hist (n0 : core) : list entry -> core -> Prop :=
| ch_nil : core_hist n0 [] n0
| ch_step h n o n' calls r : core_hist n0 h n -> core_step n o = (n', calls, r) -> r <> OPanic -> core_hist n0 ((o, calls, r) :: h) n'.

(** The number of different transfer IDs of a transport. *)
Definition tid_range (t : transport) : N := match t with TransportCan => 32 | Transport64 => 2 ^ 64 end.

(** ** Messages *)

(** The timeout and the priority with which publishing on a subject was started, if it has not been stopped since. *)
Fixpoint pub_started (subject : N) (h : list entry) : option (N * N) :=
  match h with
  | [] => None
  | (StartPublishing s t p, _, ODone) :: h' => if s =? subject then Some (t, p) else pub_started subject h'
  | (StopPublishing s, _, _) :: h' => if s =? subject then None else pub_started subject h'
  | _ :: h' => pub_started subject h'
  end.
(** Transfers on a subject among the calls. *)
Definition is_message (subject : N) (c : call) : bool :=
  match c with CPush (Transfer (HMsg m) _ _) => mh_subject m =? subject | _ => false end.
Definition messages (subject : N) (calls : list call) : N := N.of_nat (length (filter (is_message subject) calls)).
(** The number of transfers given to the transmitter since publishing was started. *)
Fixpoint pub_count (subject : N) (h : list entry) : N :=
  match h with
  | [] => 0
  | (StartPublishing s t p, _, ODone) :: h' => if s =? subject then 0 else pub_count subject h'
  | (_, calls, _) :: h' => messages subject calls + pub_count subject h'
  end.

(** ** Requests *)

Fixpoint req_started (service : N) (h : list entry) : option (N * N) :=
  match h with
  | [] => None
  | (StartSendingRequests s t _ p _, _, OToken _) :: h' => if s =? service then Some (t, p) else req_started service h'
  | (StopSendingRequests s, _, _) :: h' => if s =? service then None else req_started service h'
  | _ :: h' => req_started service h'
  end.
Definition is_request (service destination : N) (c : call) : bool :=
  match c with CPush (Transfer (HReq s) _ _) => (sh_service s =? service) && (sh_dest s =? destination) | _ => false end.
Definition requests (service destination : N) (calls : list call) : N := N.of_nat (length (filter (is_request service destination) calls)).
Fixpoint req_count (service destination : N) (h : list entry) : N :=
  match h with
  | [] => 0
  | (StartSendingRequests s t _ p _, _, OToken _) :: h' => if s =? service then 0 else req_count service destination h'
  | (_, calls, _) :: h' => requests service destination calls + req_count service destination h'
  end.

(** The ID of the node. *)
Fixpoint id_after (id0 : option N) (h : list entry) : option N :=
  match h with [] => id0 | (SetNodeId id, _, _) :: _ => Some id | _ :: h' => id_after id0 h' end.

(** [cap] different things have the property. *)
Definition full (P : N -> Prop) (cap : nat) : Prop := exists l, NoDup l /\ length l = cap /\ forall x, In x l -> P x.

(** No room for another destination. *)
Definition tracker_full (k : tracker_kind) (service : N) (h : list entry) : Prop :=
  match k with KFixed cap => full (fun d => 0 < req_count service d h) cap | KCan => False end.

(** The CAN tracker is for CAN, whose node IDs are less than 128. *)
Definition kind_ok (t : transport) (k : tracker_kind) : Prop := match k with KFixed _ => True | KCan => t = TransportCan end.
Definition destination_ok (k : tracker_kind) (d : N) : Prop := match k with KFixed _ => True | KCan => d < 128 end.

(** The receiver is subscribed to the responses of a service, as its calls and answers so far tell. *)
Fixpoint responses_subscribed (service : N) (h : list entry) : bool :=
  match h with
  | [] => false
  | (o, calls, _) :: h' =>
      if existsb (fun c => match c with CUnsubResponse s => s =? service | _ => false end) calls then false
      else if existsb (fun c => match c with CSubResponse s _ _ => s =? service | _ => false end) calls
           then match o with StartSendingRequests _ _ _ _ SubOk => true | _ => responses_subscribed service h' end
           else responses_subscribed service h'
  end.

(** ** Handlers *)

(** Offering an event to handlers in turn: [seen] are the handlers that it is offered to. *)
Inductive offered {W H} (try : H -> W -> bool * W) : list H -> W -> list H -> bool -> W -> Prop :=
| off_none w : offered try [] w [] false w
| off_yes h r w w' : try h w = (true, w') -> offered try (h :: r) w [h] true w'
| off_no h r w w' seen b w'' : try h w = (false, w') -> offered try r w' seen b w'' -> offered try (h :: r) w (h :: seen) b w''.

(** Chains of any shape, and their handlers in order. *)
Inductive chain_tree (W : Type) := One (h : handler W) | Two (a b : chain_tree W).
Arguments One {W}. Arguments Two {W}.
Fixpoint build {W} (c : chain_tree W) : handler W := match c with One h => h | Two a b => handler_chain (build a) (build b) end.
Fixpoint members {W} (c : chain_tree W) : list (handler W) := match c with One h => [h] | Two a b => members a ++ members b end.

(** What one handler is asked about a transfer. *)
Definition ask {W} (t : transfer) (h : handler W) (w : W) : bool * W :=
  if t_loopback t then on_loopback h w t
  else match t_header t with
       | HMsg m => on_message h w m false (t_payload t)
       | HReq s => on_request h w {| rt_service := sh_service s; rt_client := sh_source s; rt_transfer := sh_tid s; rt_priority := sh_prio s |} s false (t_payload t)
       | HResp s => on_response h w s false (t_payload t)
       end.
