(** Model of canadensis/src/node/{minimal,basic}.rs and service/{heartbeat,port_list,get_info}.rs, with a [CoreNode] inside.

    The generated data types are values of [GenModel]; a payload is serialized when it is published. *)
From Verif Require Import Base CoreModel NodeModel NodeSpec EncModel GenModel DataTypes.

(** serialize.rs:11-30 [do_serialize]: the buffer and the bytes in it *)
Definition payload_of (m : message) (v : value) : res (list N) := serialize_to_bytes m v (repeat 0 ((size_bits m v + 7) / 8)%nat).

(** ** The heartbeat *)
Record heartbeat := Heartbeat { hb_uptime : N; hb_health : N; hb_mode : N; hb_status : N }.
Definition heartbeat_value (h : heartbeat) : value :=
  VStruct [VUnsigned (hb_uptime h); VStruct [VUnsigned (hb_health h)]; VStruct [VUnsigned (hb_mode h)]; VUnsigned (hb_status h)].
(** minimal.rs:36-46 *)
Definition heartbeat_new : heartbeat := Heartbeat 0 0 0 0.
(** minimal.rs:76 [saturating_add] *)
Definition heartbeat_tick (h : heartbeat) : heartbeat := Heartbeat (N.min (hb_uptime h + 1) (2 ^ 32 - 1)) (hb_health h) (hb_mode h) (hb_status h).

(** ** The port list *)

(** generated.rs:9997-10017 [SubjectIDList] *)
Inductive subject_list := Mask (mask : bitarray) | Sparse (ids : list N) | Total.
Definition bits_value (a : bitarray) : res value := bind (ba_iter a) (fun l => Ok (VBits l)).
Definition subject_list_value (l : subject_list) : res value :=
  match l with
  | Mask a => bind (bits_value a) (fun v => Ok (VUnion 0 v))
  | Sparse ids => Ok (VUnion 1 (VArray (map (fun id => VStruct [VUnsigned id]) ids)))
  | Total => Ok (VUnion 2 (VStruct []))
  end.
(** a loop of [BitArray::set] *)
Fixpoint set_all (a : bitarray) (ids : list N) : res bitarray :=
  match ids with [] => Ok a | id :: r => bind (ba_set a (N.to_nat id) true) (fun a' => set_all a' r) end.
(** basic.rs:402-429 [insert_into_list] *)
Definition insert_into_list (l : subject_list) (subject : N) : res subject_list :=
  match l with
  | Mask a => bind (ba_set a (N.to_nat subject) true) (fun a' => Ok (Mask a'))
  | Sparse ids =>
      if existsb (N.eqb subject) ids then Ok l
      else if (length ids <? 255)%nat then Ok (Sparse (ids ++ [subject]))
      else bind (ba_new (N.to_nat 1024) (N.to_nat 8192)) (fun a => bind (set_all a ids) (fun a1 => bind (ba_set a1 (N.to_nat subject) true) (fun a2 => Ok (Mask a2))))
  | Total => Ok l
  end.
(** [heapless::Vec::swap_remove] of the first element equal to [id]: the last element takes its place *)
Fixpoint replace_first (id x : N) (l : list N) : list N :=
  match l with [] => [] | y :: r => if y =? id then x :: r else y :: replace_first id x r end.
Definition swap_remove (id : N) (l : list N) : list N :=
  match rev l with [] => [] | x :: r => if existsb (N.eqb id) r then replace_first id x (rev r) else rev r end.
(** basic.rs:431-452 [remove_from_list] *)
Definition remove_from_list (l : subject_list) (subject : N) : res subject_list :=
  match l with
  | Mask a => bind (ba_set a (N.to_nat subject) false) (fun a' => Ok (Mask a'))
  | Sparse ids => Ok (Sparse (if existsb (N.eqb subject) ids then swap_remove subject ids else ids))
  | Total => bind (ba_new (N.to_nat 1024) (N.to_nat 8192)) (fun a => bind (ba_set (ba_fill a true) (N.to_nat subject) false) (fun a' => Ok (Mask a')))
  end.

(** generated.rs:9588-9680 [List] *)
Record port_list := PortList { pl_publishers : subject_list; pl_subscribers : subject_list; pl_clients : bitarray; pl_servers : bitarray }.
Definition port_list_value (l : port_list) : res value :=
  bind (subject_list_value (pl_publishers l)) (fun p =>
  bind (subject_list_value (pl_subscribers l)) (fun s =>
  bind (bits_value (pl_clients l)) (fun c =>
  bind (bits_value (pl_servers l)) (fun v => Ok (VStruct [p; s; VStruct [c]; VStruct [v]]))))).
Definition set_publishers_list (l : port_list) (x : subject_list) : port_list := PortList x (pl_subscribers l) (pl_clients l) (pl_servers l).
Definition set_subscribers_list (l : port_list) (x : subject_list) : port_list := PortList (pl_publishers l) x (pl_clients l) (pl_servers l).
Definition set_clients (l : port_list) (x : bitarray) : port_list := PortList (pl_publishers l) (pl_subscribers l) x (pl_servers l).
Definition set_servers (l : port_list) (x : bitarray) : port_list := PortList (pl_publishers l) (pl_subscribers l) (pl_clients l) x.

(** ** The node *)

(** basic.rs:31-39 [BasicNode], minimal.rs:18-26 [MinimalNode] *)
Record basic := Basic { b_node : core; b_heartbeat : heartbeat; b_ports : port_list; b_info : value; b_seconds : N }.

(** an operation of the node inside, with its entry in the history *)
Definition inner_step (n : core) (o : op) : res (core * entry) :=
  let '(n', calls, r) := core_step n o in match r with OPanic => Panic | _ => Ok (n', (o, calls, r)) end.

(** basic.rs:49-108 [new], minimal.rs:36-57 [MinimalNode::new]; [None]: an error is returned.  The entries are latest first.
    [answer]: the answer of the receiver to the subscription *)
Definition basic_new (n : core) (info : value) (answer : sub_result) : res (option basic * list entry) :=
  bind (inner_step n (SubscribeRequest get_info_service 0 1000000 answer)) (fun x1 =>
  match snd (snd x1) with
  | ODone =>
      bind (inner_step (fst x1) (StartPublishing port_list_subject 1000000 7)) (fun x2 =>
      match snd (snd x2) with
      | ODone =>
          bind (inner_step (fst x2) (StartPublishing heartbeat_subject 500000 4)) (fun x3 =>
          match snd (snd x3) with
          | ODone =>
              bind (ba_new 64 (N.to_nat 512)) (fun clients =>
              bind (ba_set clients (N.to_nat get_info_service) true) (fun servers =>
              Ok (Some (Basic (fst x3) heartbeat_new (PortList (Sparse [heartbeat_subject; port_list_subject]) (Sparse []) clients servers) info 0),
                  [snd x3; snd x2; snd x1])))
          | _ => Ok (None, [snd x3; snd x2; snd x1])
          end)
      | _ => Ok (None, [snd x2; snd x1])
      end)
  | _ => Ok (None, [snd x1])
  end).

(** basic.rs:187-333: what the functions of [Node] do to the port list after the operation of the node inside *)
Definition update_ports (l : port_list) (o : op) (r : out) : res port_list :=
  match o, r with
  | StartPublishing s _ _, ODone => bind (insert_into_list (pl_publishers l) s) (fun x => Ok (set_publishers_list l x))
  | StopPublishing s, _ => bind (remove_from_list (pl_publishers l) s) (fun x => Ok (set_publishers_list l x))
  | StartSendingRequests s _ _ _ _, OToken _ => bind (ba_set (pl_clients l) (N.to_nat s) true) (fun x => Ok (set_clients l x))
  | StopSendingRequests s, _ => bind (ba_set (pl_clients l) (N.to_nat s) false) (fun x => Ok (set_clients l x))
  | SubscribeMessage s _ _ _, ODone => bind (insert_into_list (pl_subscribers l) s) (fun x => Ok (set_subscribers_list l x))
  | UnsubscribeMessage s, _ => bind (remove_from_list (pl_subscribers l) s) (fun x => Ok (set_subscribers_list l x))
  | SubscribeRequest s _ _ _, ODone => bind (ba_set (pl_servers l) (N.to_nat s) true) (fun x => Ok (set_servers l x))
  | UnsubscribeRequest s, _ => bind (ba_set (pl_servers l) (N.to_nat s) false) (fun x => Ok (set_servers l x))
  | _, _ => Ok l
  end.

(** Operations of the application: through the basic node; through the node inside ([node_mut], or a handler in [receive], which
    gets the node inside); [run_per_second_tasks] with the environment of the heartbeat and of the port list; the setters *)
Inductive basic_op :=
| BNode (o : op)
| BInner (o : op)
| BTick (e1 e2 : env)
| BSetMode (mode : N) | BSetHealth (health : N) | BSetStatus (status : N).

Definition set_node (b : basic) (n : core) : basic := Basic n (b_heartbeat b) (b_ports b) (b_info b) (b_seconds b).
Definition set_ports (b : basic) (l : port_list) : basic := Basic (b_node b) (b_heartbeat b) l (b_info b) (b_seconds b).
Definition set_heartbeat (b : basic) (h : heartbeat) : basic := Basic (b_node b) h (b_ports b) (b_info b) (b_seconds b).
Definition set_seconds (b : basic) (s : N) : basic := Basic (b_node b) (b_heartbeat b) (b_ports b) (b_info b) s.

(** [publish] of a value by the node inside.  The real function serializes only if the node publishes on the subject; here a payload is
    always made first *)
Definition publish_value (n : core) (subject : N) (m : message) (v : value) (e : env) : res (core * entry) :=
  bind (payload_of m v) (fun payload => inner_step n (Publish false subject payload e)).

(** basic.rs:111-122 [run_per_second_tasks], minimal.rs:66-78 [send_heartbeat], basic.rs:124-130 [publish_port_list] *)
Definition basic_tick (b : basic) (e1 e2 : env) : res (basic * list entry) :=
  let h := heartbeat_tick (b_heartbeat b) in
  bind (publish_value (b_node b) heartbeat_subject heartbeat_t (heartbeat_value h) e1) (fun x =>
  let b1 := set_node (set_heartbeat b h) (fst x) in
  match snd (snd x) with
  | ODone =>
      if b_seconds b =? 10 then
        bind (port_list_value (b_ports b)) (fun v =>
        bind (publish_value (b_node b1) port_list_subject port_list_t v e2) (fun y =>
        Ok (set_node (set_seconds b1 1) (fst y), [snd y; snd x])))
      else Ok (set_seconds b1 (b_seconds b + 1), [snd x])
  | _ => Ok (b1, [snd x])
  end).

Definition basic_step (b : basic) (o : basic_op) : res (basic * list entry) :=
  match o with
  | BNode o =>
      bind (inner_step (b_node b) o) (fun x =>
      bind (update_ports (b_ports b) o (snd (snd x))) (fun l => Ok (set_ports (set_node b (fst x)) l, [snd x])))
  | BInner o => bind (inner_step (b_node b) o) (fun x => Ok (set_node b (fst x), [snd x]))
  | BTick e1 e2 => basic_tick b e1 e2
  (** minimal.rs:80-91 *)
  | BSetMode mode => let h := b_heartbeat b in Ok (set_heartbeat b (Heartbeat (hb_uptime h) (hb_health h) mode (hb_status h)), [])
  | BSetHealth health => let h := b_heartbeat b in Ok (set_heartbeat b (Heartbeat (hb_uptime h) health (hb_mode h) (hb_status h)), [])
  | BSetStatus status => let h := b_heartbeat b in Ok (set_heartbeat b (Heartbeat (hb_uptime h) (hb_health h) (hb_mode h) status), [])
  end.

(** ** Node information *)

(** basic.rs:454-476 [NodeInfoHandler], get_info.rs:51-68 [GetInfoServiceHandler]: both do the same.  The world of the handlers
    ([TransferHandler]) has a node in it: [get] and [put] reach it; [env_of]: its environment; a panic of [send_response] ends
    the program: [crash] *)
Section NodeInfo.
  Context {W : Type} (get : W -> core) (put : W -> core -> entry -> W) (env_of : W -> env) (crash : W -> W).
  Definition node_info_handler (info : value) : handler W :=
    Handler
      (fun w _ _ _ => (false, w))
      (fun w token header _ _ =>
        if sh_service header =? get_info_service then
          (true, match bind (payload_of get_info_t info) (fun payload => inner_step (get w) (SendResponse token 1000000 payload (env_of w))) with
                 | Ok (n, e) => put w n e
                 | Panic => crash w
                 end)
        else (false, w))
      (fun w _ _ _ => (false, w))
      (fun w _ => (false, w)).
  (** basic.rs:173-185 [receive] *)
  Definition basic_receive (info : value) (user : handler W) (answers : list recv_result) (w : W) : bool * W :=
    core_receive (handler_chain (node_info_handler info) user) answers w.
End NodeInfo.

(** ** The port list service *)

(** port_list.rs:39-70 [publish_port_list]: [subscribers] and [servers] are what the receiver reports; [collect] into a
    [heapless::Vec] of 255 elements panics when there are more *)
Definition collect_subjects (ids : list N) : res subject_list := if (length ids <=? 255)%nat then Ok (Sparse ids) else Panic.
Definition service_port_list (n : core) (subscribers servers : list N) : res port_list :=
  bind (collect_subjects (publishers n)) (fun p =>
  bind (collect_subjects subscribers) (fun s =>
  bind (ba_new 64 (N.to_nat 512)) (fun a =>
  bind (set_all a (clients n)) (fun c =>
  bind (set_all a servers) (fun v => Ok (PortList p s c v)))))).
Definition service_publish (n : core) (subscribers servers : list N) (e : env) : res (core * entry) :=
  bind (service_port_list n subscribers servers) (fun l =>
  bind (port_list_value l) (fun v => publish_value n port_list_subject port_list_t v e)).
