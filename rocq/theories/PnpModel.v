(** Model of canadensis/src/service/pnp/{mod,server,client}.rs and canadensis_pnp_client/src/lib.rs. *)
From Verif Require Import Base CoreModel NodeModel NodeSpec EncModel GenModel DataTypes BasicModel.

(** * Allocation messages *)

(** generated.rs:9280-9287 uavcan.node.ID.1.0, 10614-10634 uavcan.pnp.NodeIDAllocationData.1.0, 10694-10716 uavcan.pnp.NodeIDAllocationData.2.0 *)
Definition node_id_t : message := Message false (KStruct [MData (uint 16)]).
Definition allocation1_t : message := Message false (KStruct [MData (uint 48); MData (TVariable (SComposite node_id_t) 1)]).
Definition allocation2_t : message := Message true (KStruct [MData (TScalar (SComposite node_id_t)); MData (TFixed (SPrimitive (PUInt 8)) 16)]).
Inductive version := V1 | V2.
Definition allocation_t (v : version) : message := match v with V1 => allocation1_t | V2 => allocation2_t end.
(** mod.rs:45-46, 90-91 [SUBJECT], [PAYLOAD_SIZE_MAX]; generated.rs [SUBJECT] *)
Definition allocation_subject (v : version) : N := match v with V1 => 8166 | V2 => 8165 end.
Definition allocation_size_max (v : version) : nat := match v with V1 => 9 | V2 => 18 end.

(** third-party crate crc_any, [CRCu64::crc64we]: CRC-64/WE, bit by bit *)
Definition crc64_step (c : N) : N := w64 (if N.testbit c 63 then N.lxor (2 * c) 4823603603198064275 else 2 * c).
Definition crc64_byte (c b : N) : N := Nat.iter 8 crc64_step (N.lxor c (N.shiftl b 56)).
Definition crc64we (bytes : list N) : N := N.lxor (fold_left crc64_byte bytes (2 ^ 64 - 1)) (2 ^ 64 - 1).
(** mod.rs:77-84 [crc_64we_48_bits]; canadensis_pnp_client/src/lib.rs:168-175 *)
Definition crc_64we_48_bits (id : list N) : N := N.land (crc64we id) (2 ^ 48 - 1).

Definition bytes_value (bytes : list N) : value := VArray (map VUnsigned bytes).
Fixpoint same_bytes (a b : list N) : bool :=
  match a, b with [], [] => true | x :: a', y :: b' => (x =? y) && same_bytes a' b' | _, _ => false end.
(** mod.rs:48-54, 93-98 [with_unique_id]; canadensis_pnp_client/src/lib.rs:146-152 *)
Definition with_unique_id (v : version) (id : list N) : value :=
  match v with
  | V1 => VStruct [VUnsigned (crc_64we_48_bits id); VArray []]
  | V2 => VStruct [VStruct [VUnsigned 0]; bytes_value id]
  end.
(** mod.rs:56-59, 100-102 [matches_unique_id]; canadensis_pnp_client/src/lib.rs:154-157 *)
Definition matches_unique_id (v : version) (m : value) (id : list N) : bool :=
  match v, m with
  | V1, VStruct [VUnsigned hash; _] => hash =? crc_64we_48_bits id
  | V2, VStruct [_; VArray bytes] => same_bytes (map unsigned_of bytes) id
  | _, _ => false
  end.
(** canadensis_can/src/types.rs:92-101 [TryFrom<u16> for CanNodeId], canadensis_header/src/lib.rs:361-371 [TryFrom<u16> for NodeId16];
    [max_value]: types.rs:56-59, lib.rs:390-393 *)
Definition max_node_id (t : transport) : N := match t with TransportCan => 127 | Transport64 => 65534 end.
Definition to_node_id (t : transport) (value : N) : option N := if value <=? max_node_id t then Some value else None.
(** mod.rs:61-67, 104-108 [node_id]; canadensis_pnp_client/src/lib.rs:159-165 *)
Definition node_id (t : transport) (v : version) (m : value) : option N :=
  match v, m with
  | V1, VStruct [_; VArray (VStruct [VUnsigned id] :: _)] => to_node_id t id
  | V2, VStruct [VStruct [VUnsigned id]; _] => to_node_id t id
  | _, _ => None
  end.
(** mod.rs:69-74, 110-115 [with_node_id] *)
Definition with_node_id (v : version) (m : value) (id : N) : value :=
  match v, m with
  | V1, VStruct (hash :: _) => VStruct [hash; VArray [VStruct [VUnsigned id]]]
  | V2, VStruct [_; bytes] => VStruct [VStruct [VUnsigned id]; bytes]
  | _, _ => m
  end.

(** * The server *)

(** server.rs:16-26 [Assignment], 28-42 [is_assigned_and], [is_assigned] *)
Inductive assignment := Unassigned | Reserved | Assigned (unique_id : list N).
Definition is_assigned_and (a : assignment) (f : list N -> bool) : bool :=
  match a with Assigned id => f id | Reserved => true | Unassigned => false end.
Definition is_assigned (a : assignment) : bool := is_assigned_and a (fun _ => true).
(** [Iterator::position] *)
Fixpoint position {A} (f : A -> bool) (l : list A) : option nat :=
  match l with [] => None | a :: r => if f a then Some O else option_map S (position f r) end.
(** [a[i] = x] *)
Fixpoint store_at {A} (i : nat) (x : A) (l : list A) : list A :=
  match l, i with [], _ => [] | _ :: r, O => x :: r | y :: r, S j => y :: store_at j x r end.

(** start of [new] of a server or a client: [subscribe_message] and [start_publishing]; whether both succeeded.  Entries are latest first *)
Definition join (v : version) (n : core) (answer : sub_result) : res (bool * core * list entry) :=
  bind (inner_step n (SubscribeMessage (allocation_subject v) (allocation_size_max v) 1000000 answer)) (fun x1 =>
  match snd (snd x1) with
  | ODone =>
      bind (inner_step (fst x1) (StartPublishing (allocation_subject v) 1000000 4)) (fun x2 =>
      match snd (snd x2) with ODone => Ok (true, fst x2, [snd x2; snd x1]) | _ => Ok (false, fst x2, [snd x2; snd x1]) end)
  | _ => Ok (false, fst x1, [snd x1])
  end).
(** server.rs:107: the table, [C] is the greatest node ID (57-63) *)
Definition table_new (t : transport) : list assignment := repeat Unassigned (N.to_nat (max_node_id t)).
(** server.rs:56-110 [new]: whether it succeeded; [mtu] is what the transmitter reports; the answers of the receiver *)
Definition server_new (n : core) (mtu : nat) (answer1 answer2 : sub_result) : res (option (list assignment) * core * list entry) :=
  bind (join V1 n answer1) (fun x =>
  let '(ok, n1, es) := x in
  if ok then
    if (allocation_size_max V2 <=? mtu)%nat
    then bind (join V2 n1 answer2) (fun y => let '(ok, n2, es2) := y in Ok (if ok then Some (table_new (c_transport n)) else None, n2, es2 ++ es))
    else Ok (Some (table_new (c_transport n)), n1, es)
  else Ok (None, n1, es)).
(** server.rs:118-125 [assign]; the index can be out of bounds *)
Definition server_assign (l : list assignment) (id : N) (unique_id : list N) : res (list assignment) :=
  match nth_error l (N.to_nat id) with
  | None => Panic
  | Some a => Ok (if is_assigned a then l else store_at (N.to_nat id) (Assigned unique_id) l)
  end.
(** server.rs:154-184 [handle_allocation_message]: the table and the message that is published; the conversion of the index to a node
    ID can fail *)
Definition handle_allocation (t : transport) (v : version) (l : list assignment) (m : value) : res (list assignment * option value) :=
  let answer l i := match to_node_id t (N.of_nat i) with Some id => Ok (l, Some (with_node_id v m id)) | None => Panic end in
  match position (fun a => is_assigned_and a (matches_unique_id v m)) l with
  | Some i => answer l i
  | None =>
      match position (fun a => negb (is_assigned a)) (rev l) with
      | Some i => answer (store_at i Reserved l) i
      | None => Ok (l, None)
      end
  end.
(** server.rs:206-209: a heartbeat from [id] *)
Definition handle_heartbeat (l : list assignment) (id : N) : res (list assignment) :=
  match nth_error l (N.to_nat id) with
  | None => Panic
  | Some a => Ok (if is_assigned a then l else store_at (N.to_nat id) Reserved l)
  end.
(** server.rs:188-216 [handle_message]: whether it was handled, the table, the node and what it did *)
Definition server_allocation (v : version) (l : list assignment) (n : core) (payload : list N) (e : env) : res (bool * list assignment * core * list entry) :=
  bind (deserialize_from_bytes (allocation_t v) payload) (fun d =>
  match d with
  | DOk m =>
      bind (handle_allocation (c_transport n) v l m) (fun x =>
      match snd x with
      | Some response => bind (publish_value n (allocation_subject v) (allocation_t v) response e) (fun y => Ok (true, fst x, fst y, [snd y]))
      | None => Ok (true, fst x, n, [])
      end)
  | DErr _ => Ok (false, l, n, [])
  end).
Definition server_message (l : list assignment) (n : core) (header : msg_header) (payload : list N) (e : env) : res (bool * list assignment * core * list entry) :=
  if mh_subject header =? allocation_subject V1 then server_allocation V1 l n payload e
  else if mh_subject header =? allocation_subject V2 then server_allocation V2 l n payload e
  else if mh_subject header =? heartbeat_subject then
    match mh_source header with
    | Some id =>
        bind (deserialize_from_bytes heartbeat_t payload) (fun d =>
        match d with
        | DOk _ => bind (handle_heartbeat l id) (fun l' => Ok (false, l', n, []))
        | DErr _ => Ok (false, l, n, [])
        end)
    | None => Ok (false, l, n, [])
    end
  else Ok (false, l, n, []).

(** server.rs:132-145 [assignments]; the conversion of the index can fail *)
Definition server_assignments (t : transport) (l : list assignment) : list (res (N * assignment)) :=
  map (fun x => match to_node_id t (N.of_nat (fst x)) with Some id => Ok (id, snd x) | None => Panic end) (combine (seq 0 (length l)) l).

(** * The clients *)

(** client.rs:35-57 [new]: whether it succeeded; [debug]: the program is built with debug assertions *)
Definition client_new (v : version) (n : core) (mtu : nat) (debug : bool) (answer : sub_result) : res (bool * core * list entry) :=
  if debug && (mtu <? allocation_size_max v)%nat then Panic else join v n answer.

(** client.rs:60-66 [send_request] of a node *)
Definition client_request (v : version) (unique_id : list N) (n : core) (e : env) : res (core * entry) :=
  publish_value n (allocation_subject v) (allocation_t v) (with_unique_id v unique_id) e.
(** client.rs:89-98 [handle_message], canadensis_pnp_client/src/lib.rs:94-102: the node ID in a message for this node.  The subject of
    the message is not looked at. *)
Definition offer (t : transport) (v : version) (unique_id : list N) (payload : list N) : res (option N) :=
  bind (deserialize_from_bytes (allocation_t v) payload) (fun d =>
  match d with
  | DOk m => Ok (if matches_unique_id v m unique_id then node_id t v m else None)
  | DErr _ => Ok None
  end).
(** client.rs:84-100 [handle_message]: whether it was handled, the node and what it did, latest first *)
Definition client_message (v : version) (unique_id : list N) (n : core) (header : msg_header) (payload : list N) : res (bool * core * list entry) :=
  bind (offer (c_transport n) v unique_id payload) (fun o =>
  match o with
  | Some id =>
      bind (inner_step n (SetNodeId id)) (fun x1 =>
      bind (inner_step (fst x1) (UnsubscribeMessage (allocation_subject v))) (fun x2 =>
      bind (inner_step (fst x2) (StopPublishing (allocation_subject v))) (fun x3 =>
      Ok (true, fst x3, [snd x3; snd x2; snd x1]))))
  | None => Ok (false, n, [])
  end).

(** canadensis_pnp_client/src/lib.rs:29-39 [PnpClient], 62-66 [AnonymousPublisher::new]; version 1 only *)
Definition pnp_client_new : anonymous := anonymous_new (allocation_subject V1) 4 1000000.
(** canadensis_pnp_client/src/lib.rs:74-83 [send_request] *)
Definition pnp_client_send (t : transport) (unique_id : list N) (a : anonymous) (mtu : nat) (e : env) : res (anonymous * list call) :=
  bind (payload_of allocation1_t (with_unique_id V1 unique_id)) (fun payload =>
  let '(a', calls, r) := anonymous_send t a mtu e payload false in
  match r with AnonymousPush PushOk => Ok (a', calls) | _ => Panic end).
(** canadensis_pnp_client/src/lib.rs:88-103 [receive], when the receiver yields a transfer *)
Definition pnp_client_receive (t : transport) (unique_id : list N) (payload : list N) : res (option N) := offer t V1 unique_id payload.
