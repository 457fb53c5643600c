(** Specification of the histories of a basic node, and of what its messages say. *)
From Verif Require Import Base CoreModel NodeModel NodeSpec EncModel GenModel DataTypes BasicModel.

(** ** Histories *)

(** What happened since the node was created: operations of the application and what the node inside did, latest first. *)
Definition basic_log : Type := list (basic_op * list entry).
(** everything that the node inside did; [es0]: before and during the creation *)
Definition inner (es0 : list entry) (l : basic_log) : list entry := flat_map snd l ++ es0.
(** [n0]: the node inside, [h0]: what it did before *)
Inductive basic_hist (n0 : core) (h0 : list entry) (info : value) : list entry -> basic_log -> basic -> Prop :=
| bh_new n answer b es : core_hist n0 h0 n -> basic_new n info answer = Ok (Some b, es) -> basic_hist n0 h0 info (es ++ h0) [] b
| bh_step es0 l b o b' es : basic_hist n0 h0 info es0 l b -> basic_step b o = Ok (b', es) -> basic_hist n0 h0 info es0 ((o, es) :: l) b'.

(** Subject IDs and service IDs are in their ranges. *)
Definition op_ok (o : op) : Prop :=
  match o with
  | StartPublishing s _ _ | StopPublishing s | SubscribeMessage s _ _ _ | UnsubscribeMessage s => s <= 8191
  | StartSendingRequests s _ _ _ _ | StopSendingRequests s | SubscribeRequest s _ _ _ | UnsubscribeRequest s => s <= 511
  | _ => True
  end.
(** The operation starts or stops using a port. *)
Definition port_op (o : op) : bool :=
  match o with
  | StartPublishing _ _ _ | StopPublishing _ | SubscribeMessage _ _ _ _ | UnsubscribeMessage _
  | StartSendingRequests _ _ _ _ _ | StopSendingRequests _ | SubscribeRequest _ _ _ _ | UnsubscribeRequest _ => true
  | _ => false
  end.
(** Arguments that the API allows; modes, health values and status codes are in the ranges of their DSDL types. *)
Definition basic_op_ok (o : basic_op) : Prop :=
  match o with BNode o | BInner o => op_ok o | BTick _ _ => True | BSetMode m => m < 8 | BSetHealth x => x < 4 | BSetStatus s => s < 256 end.
(** Ports are used through the basic node only. *)
Definition direct (o : basic_op) : bool := match o with BInner o => negb (port_op o) | _ => true end.

(** ** Ports in use *)

Fixpoint sub_started (subject : N) (h : list entry) : bool :=
  match h with
  | [] => false
  | (SubscribeMessage s _ _ _, _, ODone) :: h' => if s =? subject then true else sub_started subject h'
  | (UnsubscribeMessage s, _, _) :: h' => if s =? subject then false else sub_started subject h'
  | _ :: h' => sub_started subject h'
  end.
Fixpoint srv_started (service : N) (h : list entry) : bool :=
  match h with
  | [] => false
  | (SubscribeRequest s _ _ _, _, ODone) :: h' => if s =? service then true else srv_started service h'
  | (UnsubscribeRequest s, _, _) :: h' => if s =? service then false else srv_started service h'
  | _ :: h' => srv_started service h'
  end.

(** A value of SubjectIDList contains the subject: by the mask, by the list, or all are. *)
Definition in_subject_list (subject : N) (v : value) : Prop :=
  match v with
  | VUnion 0 (VBits mask) => nth (N.to_nat subject) mask false = true
  | VUnion 1 (VArray ids) => In (VStruct [VUnsigned subject]) ids
  | VUnion 2 _ => True
  | _ => False
  end.
Definition in_service_list (service : N) (v : value) : Prop :=
  match v with VStruct [VBits mask] => nth (N.to_nat service) mask false = true | _ => False end.
(** A value of uavcan.node.port.List says which ports are in use. *)
Definition says_ports (v : value) (pub sub cln srv : N -> Prop) : Prop :=
  exists p s c r, v = VStruct [p; s; c; r] /\
    (forall x, x <= 8191 -> (in_subject_list x p <-> pub x)) /\ (forall x, x <= 8191 -> (in_subject_list x s <-> sub x)) /\
    (forall x, x <= 511 -> (in_service_list x c <-> cln x)) /\ (forall x, x <= 511 -> (in_service_list x r <-> srv x)).
Definition says_ports_after (v : value) (h : list entry) : Prop :=
  says_ports v (fun s => pub_started s h <> None) (fun s => sub_started s h = true)
    (fun s => req_started s h <> None) (fun s => srv_started s h = true).

(** ** Heartbeats *)

Fixpoint ticks (l : basic_log) : N := match l with [] => 0 | (BTick _ _, _) :: r => 1 + ticks r | _ :: r => ticks r end.
Fixpoint mode_set (l : basic_log) : N := match l with [] => 0 | (BSetMode m, _) :: _ => m | _ :: r => mode_set r end.
Fixpoint health_set (l : basic_log) : N := match l with [] => 0 | (BSetHealth x, _) :: _ => x | _ :: r => health_set r end.
Fixpoint status_set (l : basic_log) : N := match l with [] => 0 | (BSetStatus s, _) :: _ => s | _ :: r => status_set r end.

(** The entry is for a publication on the subject. *)
Definition published (subject : N) (e : entry) : bool := match e with (Publish _ s _ _, _, _) => s =? subject | _ => false end.
Definition accepted (subject : N) (e : entry) : bool := match e with (_, _, ODone) => published subject e | _ => false end.
(** The number of ticks whose heartbeat was accepted. *)
Fixpoint heartbeats (l : basic_log) : N :=
  match l with
  | [] => 0
  | (BTick _ _, es) :: r => (if existsb (accepted heartbeat_subject) es then 1 else 0) + heartbeats r
  | _ :: r => heartbeats r
  end.

(** The receiver of a payload reads the value, whatever padding follows. *)
Definition carries (m : message) (payload : list N) (v : value) : Prop :=
  bytes_ok payload /\ forall more, bytes_ok more -> deserialize_from_bytes m (payload ++ more) = Ok (DOk v).
