(** Model of canadensis/src/{publisher,requester,serialize,anonymous,lib}.rs, node/core.rs and of the transfer ID tracker of
    canadensis_can/src/lib.rs.

    The transmitter, the receiver, the clock and the allocator are the environment: every operation gets their answers as
    arguments and yields the calls made to the transmitter and the receiver.  A payload is its serialized form.  The maps
    [FnvIndexMap] of the third-party crate heapless are association lists with a capacity; their iteration order is not
    modelled. *)
From Verif Require Import Base CoreModel.

(** * Transfer IDs *)

(** canadensis_can/src/types.rs:152-161 and canadensis_header/src/lib.rs:407-411 [TransferId::increment].  The default of both
    types is 0. *)
Inductive transport := TransportCan | Transport64.
Definition tid_next (t : transport) (id : N) : N :=
  match t with
  | TransportCan => if id =? 31 then 0 else id + 1
  | Transport64 => w64 (id + 1)
  end.

(** * heapless [FnvIndexMap] *)
Fixpoint im_get {V} (k : N) (l : list (N * V)) : option V :=
  match l with [] => None | (x, v) :: r => if x =? k then Some v else im_get k r end.
(** a change through [get_mut] *)
Fixpoint im_set {V} (k : N) (v : V) (l : list (N * V)) : list (N * V) :=
  match l with [] => [] | (x, w) :: r => if x =? k then (x, v) :: r else (x, w) :: im_set k v r end.
(** [insert]: an error when a new key does not fit *)
Definition im_insert {V} (cap : nat) (k : N) (v : V) (l : list (N * V)) : option (list (N * V)) :=
  match im_get k l with
  | Some _ => Some (im_set k v l)
  | None => if (length l <? cap)%nat then Some (l ++ [(k, v)]) else None
  end.
Fixpoint im_remove {V} (k : N) (l : list (N * V)) : list (N * V) :=
  match l with [] => [] | (x, w) :: r => if x =? k then r else (x, w) :: im_remove k r end.

(** * Transfer ID trackers *)

(** requester.rs:146-148 [TransferIdFixedMap]; canadensis_can/src/lib.rs:101-103 [CanTransferIdTracker], an array of 640 bits *)
Inductive tracker_kind := KFixed (cap : nat) | KCan.
Inductive tracker := FixedMap (cap : nat) (ids : list (N * N)) | CanBits (bits : list bool).
Definition tracker_default (k : tracker_kind) : tracker :=
  match k with KFixed cap => FixedMap cap [] | KCan => CanBits (repeat false 640) end.

(** [BitSlice::load] and [BitSlice::store] (third-party crate bitvec) on the bits [off .. off + 5] *)
Definition load5 (bits : list bool) (off : nat) : N := fold_right (fun b v => N.b2n b + 2 * v) 0 (firstn 5 (skipn off bits)).
Definition store5 (bits : list bool) (off : nat) (v : N) : list bool :=
  firstn off bits ++ map (fun i => N.testbit v (N.of_nat i)) (seq 0 5) ++ skipn (off + 5) bits.

(** requester.rs:158-180 and canadensis_can/src/lib.rs:115-127 [next_transfer_id]; [None] is [OutOfMemoryError] *)
Definition tracker_next (t : transport) (tr : tracker) (destination : N) : res (option N * tracker) :=
  match tr with
  | FixedMap cap ids =>
      match im_get destination ids with
      | Some current => Ok (Some current, FixedMap cap (im_set destination (tid_next t current) ids))
      | None =>
          match im_insert cap destination (tid_next t 0) ids with
          | Some ids' => Ok (Some 0, FixedMap cap ids')
          | None => Ok (None, tr)
          end
      end
  | CanBits bits =>
      let offset := (N.to_nat destination * 5)%nat in
      if (5 + offset <=? length bits)%nat
      then let id := load5 bits offset in Ok (Some id, CanBits (store5 bits offset (tid_next TransportCan id)))
      else Panic
  end.

(** * The environment *)

(** the answer of [Transmitter::push] ([nb::Result]), or of serialization *)
Inductive transport_error := EOutOfMemory | EOther (code : N).
Inductive push_result := PushOk | PushWouldBlock | PushError (e : transport_error).
(** the answer of [Receiver::subscribe_*] *)
Inductive sub_result := SubOk | SubError (e : transport_error) | SubAnonymous.
(** the time, whether an allocation succeeds, and the answer of the transmitter *)
Record env := Env { e_now : N; e_alloc : bool; e_push : push_result }.

(** calls to the transmitter and the receiver *)
Inductive call :=
| CPush (t : transfer)
| CSubMessage (subject : N) (size_max : nat) (timeout : N)
| CSubRequest (service : N) (size_max : nat) (timeout : N)
| CSubResponse (service : N) (size_max : nat) (timeout : N)
| CUnsubMessage (subject : N)
| CUnsubRequest (service : N)
| CUnsubResponse (service : N)
| CSetId (id : N).

(** what a node function returns *)
Inductive out :=
| ODone
| OToken (service : N)
| OTransferId (id : N)
| ODuplicate | OMemory | OAnonymous | ONotPublishing | OWouldBlock
| OError (e : transport_error)
| OPanic.

(** serialize.rs:11-30 [do_serialize]: payloads of more than 64 bytes need an allocation *)
Definition serialize_ok (e : env) (payload : list N) : bool := (length payload <=? 64)%nat || e_alloc e.

(** * Publishers and requesters *)

(** publisher.rs:11-18 [Publisher], 24-33 [new] *)
Record publisher := Publisher { p_next : N; p_timeout : N; p_priority : N }.
Definition publisher_new (timeout priority : N) : publisher := Publisher 0 timeout priority.
(** publisher.rs:38-65 [publish], 67-94 [publish_loopback], 96-123 [send_payload] *)
Definition publisher_publish (t : transport) (p : publisher) (e : env) (source : option N) (subject : N) (payload : list N) (loopback : bool)
  : publisher * list call * push_result :=
  if serialize_ok e payload then
    let deadline := t_add (e_now e) (p_timeout p) in
    let transfer := Transfer (HMsg (MsgH deadline (p_next p) (p_priority p) subject source)) loopback payload in
    (Publisher (tid_next t (p_next p)) (p_timeout p) (p_priority p), [CPush transfer], e_push e)
  else (p, [], PushError EOutOfMemory).

(** requester.rs:14-21 [Requester], 29-38 [new] *)
Record requester := Requester { q_priority : N; q_timeout : N; q_ids : tracker }.
Definition requester_new (k : tracker_kind) (timeout priority : N) : requester := Requester priority timeout (tracker_default k).
(** requester.rs:41-70 [send], 73-102 [send_loopback], 104-138 [send_payload] *)
Definition requester_send (t : transport) (q : requester) (e : env) (source service : N) (payload : list N) (destination : N) (loopback : bool)
  : res (requester * list call * out) :=
  if serialize_ok e payload then
    let deadline := t_add (e_now e) (q_timeout q) in
    match tracker_next t (q_ids q) destination with
    | Panic => Panic
    | Ok (None, ids) => Ok (Requester (q_priority q) (q_timeout q) ids, [], OError EOutOfMemory)
    | Ok (Some transfer_id, ids) =>
        let transfer := Transfer (HReq (SvcH deadline transfer_id (q_priority q) service source destination)) loopback payload in
        Ok (Requester (q_priority q) (q_timeout q) ids, [CPush transfer],
            match e_push e with PushOk => OTransferId transfer_id | PushWouldBlock => OWouldBlock | PushError err => OError err end)
    end
  else Ok (q, [], OError EOutOfMemory).

(** anonymous.rs:20-31 [AnonymousPublisher], 40-52 [new] *)
Record anonymous := Anonymous { a_priority : N; a_subject : N; a_next : N; a_timeout : N }.
Definition anonymous_new (subject priority timeout : N) : anonymous := Anonymous priority subject 0 timeout.
Inductive anonymous_out := AnonymousLength | AnonymousPush (r : push_result).
(** anonymous.rs:58-66 [send], 73-81 [send_loopback], 83-110 [send_inner], 112-137 [send_payload]; [mtu] is what the transmitter
    reports *)
Definition anonymous_send (t : transport) (a : anonymous) (mtu : nat) (e : env) (payload : list N) (loopback : bool)
  : anonymous * list call * anonymous_out :=
  if (mtu <? length payload)%nat then (a, [], AnonymousLength)
  else if serialize_ok e payload then
    let transfer := Transfer (HMsg (MsgH (t_add (e_now e) (a_timeout a)) (a_next a) (a_priority a) (a_subject a) None)) loopback payload in
    (Anonymous (a_priority a) (a_subject a) (tid_next t (a_next a)) (a_timeout a), [CPush transfer], AnonymousPush (e_push e))
  else (a, [], AnonymousPush (PushError EOutOfMemory)).

(** * The core node *)

(** lib.rs:50-60 [ResponseToken] *)
Record response_token := Token { rt_service : N; rt_client : N; rt_transfer : N; rt_priority : N }.

(** core.rs:37-50 [CoreNode]; the parameters [P] and [R], the transport and the kind of tracker are fields here *)
Record core := Core {
  c_transport : transport; c_kind : tracker_kind; c_P : nat; c_R : nat;
  c_id : option N; c_publishers : list (N * publisher); c_requesters : list (N * requester) }.
(** core.rs:67-105 [new], [new_anonymous], [new_inner] *)
Definition core_new (t : transport) (k : tracker_kind) (P R : nat) (id : option N) : core := Core t k P R id [] [].
Definition set_publishers (n : core) (l : list (N * publisher)) : core := Core (c_transport n) (c_kind n) (c_P n) (c_R n) (c_id n) l (c_requesters n).
Definition set_requesters (n : core) (l : list (N * requester)) : core := Core (c_transport n) (c_kind n) (c_P n) (c_R n) (c_id n) (c_publishers n) l.
Definition set_id (n : core) (id : option N) : core := Core (c_transport n) (c_kind n) (c_P n) (c_R n) id (c_publishers n) (c_requesters n).

(** core.rs:211-225 [start_publishing] *)
Definition start_publishing (n : core) (subject timeout priority : N) : core * list call * out :=
  match im_get subject (c_publishers n) with
  | Some _ => (n, [], ODuplicate)
  | None =>
      match im_insert (c_P n) subject (publisher_new timeout priority) (c_publishers n) with
      | Some l => (set_publishers n l, [], ODone)
      | None => (n, [], OMemory)
      end
  end.
(** core.rs:227-229 [stop_publishing] *)
Definition stop_publishing (n : core) (subject : N) : core * list call * out :=
  (set_publishers n (im_remove subject (c_publishers n)), [], ODone).
(** core.rs:231-256 [publish], 258-283 [publish_loopback] *)
Definition publish (n : core) (subject : N) (payload : list N) (loopback : bool) (e : env) : core * list call * out :=
  match im_get subject (c_publishers n) with
  | None => (n, [], ONotPublishing)
  | Some p =>
      let '(p', calls, r) := publisher_publish (c_transport n) p e (c_id n) subject payload loopback in
      (set_publishers n (im_set subject p' (c_publishers n)), calls,
       match r with PushOk => ODone | PushWouldBlock => OWouldBlock | PushError err => OError err end)
  end.
(** core.rs:288-325 [start_sending_requests] *)
Definition start_sending_requests (n : core) (service timeout : N) (size_max : nat) (priority : N) (answer : sub_result)
  : core * list call * out :=
  match c_id n with
  | None => (n, [], OAnonymous)
  | Some _ =>
      match im_get service (c_requesters n) with
      | Some _ => (n, [], ODuplicate)
      | None =>
          match im_insert (c_R n) service (requester_new (c_kind n) timeout priority) (c_requesters n) with
          | None => (n, [], OMemory)
          | Some l =>
              let calls := [CSubResponse service size_max timeout] in
              match answer with
              | SubOk => (set_requesters n l, calls, OToken service)
              | SubError err => (set_requesters n (im_remove service l), calls, OError err)
              | SubAnonymous => (set_requesters n (im_remove service l), calls, OAnonymous)
              end
          end
      end
  end.
(** core.rs:327-332 [stop_sending_requests] *)
Definition stop_sending_requests (n : core) (service : N) : core * list call * out :=
  (set_requesters n (im_remove service (c_requesters n)), [], ODone).
(** core.rs:334-356 [send_request], 358-383 [send_request_loopback] *)
Definition send_request (n : core) (service : N) (payload : list N) (destination : N) (loopback : bool) (e : env) : core * list call * out :=
  match im_get service (c_requesters n) with
  | None => (n, [], OPanic)
  | Some q =>
      match c_id n with
      | None => (n, [], OPanic)
      | Some source =>
          match requester_send (c_transport n) q e source service payload destination loopback with
          | Panic => (n, [], OPanic)
          | Ok (q', calls, r) => (set_requesters n (im_set service q' (c_requesters n)), calls, r)
          end
      end
  end.
(** core.rs:385-411 [subscribe_message], [unsubscribe_message], [subscribe_request], [unsubscribe_request] *)
Definition subscribe_out (answer : sub_result) : out :=
  match answer with SubOk => ODone | SubError err => OError err | SubAnonymous => OAnonymous end.
(** core.rs:413-427 [send_response], 161-181 [send_response_payload] *)
Definition send_response (n : core) (token : response_token) (timeout : N) (payload : list N) (e : env) : core * list call * out :=
  if serialize_ok e payload then
    match c_id n with
    | None => (n, [], OPanic)
    | Some source =>
        (n, [CPush (Transfer (HResp (SvcH (t_add (e_now e) timeout) (rt_transfer token) (rt_priority token) (rt_service token) source (rt_client token))) false payload)],
         match e_push e with PushOk => ODone | PushWouldBlock => OWouldBlock | PushError err => OError err end)
    end
  else (n, [], OError EOutOfMemory).
(** core.rs:461-464 [set_node_id] *)
Definition set_node_id (n : core) (id : N) : core * list call * out := (set_id n (Some id), [CSetId id], ODone).

(** core.rs:466-468 [publishers], 474-476 [clients] *)
Definition publishers (n : core) : list N := map fst (c_publishers n).
Definition clients (n : core) : list N := map fst (c_requesters n).

(** The operations of a node *)
Inductive op :=
| StartPublishing (subject timeout priority : N)
| StopPublishing (subject : N)
| Publish (loopback : bool) (subject : N) (payload : list N) (e : env)
| StartSendingRequests (service timeout : N) (size_max : nat) (priority : N) (answer : sub_result)
| StopSendingRequests (service : N)
| SendRequest (loopback : bool) (service : N) (payload : list N) (destination : N) (e : env)
| SubscribeMessage (subject : N) (size_max : nat) (timeout : N) (answer : sub_result)
| UnsubscribeMessage (subject : N)
| SubscribeRequest (service : N) (size_max : nat) (timeout : N) (answer : sub_result)
| UnsubscribeRequest (service : N)
| SendResponse (token : response_token) (timeout : N) (payload : list N) (e : env)
| SetNodeId (id : N).
Definition core_step (n : core) (o : op) : core * list call * out :=
  match o with
  | StartPublishing s t p => start_publishing n s t p
  | StopPublishing s => stop_publishing n s
  | Publish lb s b e => publish n s b lb e
  | StartSendingRequests s t m p a => start_sending_requests n s t m p a
  | StopSendingRequests s => stop_sending_requests n s
  | SendRequest lb s b d e => send_request n s b d lb e
  | SubscribeMessage s m t a => (n, [CSubMessage s m t], subscribe_out a)
  | UnsubscribeMessage s => (n, [CUnsubMessage s], ODone)
  | SubscribeRequest s m t a => (n, [CSubRequest s m t], subscribe_out a)
  | UnsubscribeRequest s => (n, [CUnsubRequest s], ODone)
  | SendResponse k t b e => send_response n k t b e
  | SetNodeId id => set_node_id n id
  end.

(** * Handlers *)

(** lib.rs:109-188 [TransferHandler]: a handler can change the world [W] (itself, the node, ...).  Message, request and response
    transfers are given as their header, loopback flag and payload. *)
Record handler (W : Type) := Handler {
  on_message : W -> msg_header -> bool -> list N -> bool * W;
  on_request : W -> response_token -> svc_header -> bool -> list N -> bool * W;
  on_response : W -> svc_header -> bool -> list N -> bool * W;
  on_loopback : W -> transfer -> bool * W }.
Arguments Handler {W}. Arguments on_message {W}. Arguments on_request {W}. Arguments on_response {W}. Arguments on_loopback {W}.
(** the default methods *)
Definition handler_default (W : Type) : handler W :=
  Handler (fun w _ _ _ => (false, w)) (fun w _ _ _ _ => (false, w)) (fun w _ _ _ => (false, w)) (fun w _ => (false, w)).
(** lib.rs:238-335 [TransferHandlerChain] *)
Definition handler_chain {W} (h0 h1 : handler W) : handler W :=
  Handler
    (fun w m lb p => let (handled, w') := on_message h0 w m lb p in if handled then (true, w') else on_message h1 w' m lb p)
    (fun w k s lb p => let (handled, w') := on_request h0 w k s lb p in if handled then (true, w') else on_request h1 w' k s lb p)
    (fun w s lb p => let (handled, w') := on_response h0 w s lb p in if handled then (true, w') else on_response h1 w' s lb p)
    (fun w t => let (handled, w') := on_loopback h0 w t in if handled then (true, w') else on_loopback h1 w' t).

(** core.rs:116-159 [handle_incoming_transfer] *)
Definition handle_incoming {W} (h : handler W) (t : transfer) (w : W) : bool * W :=
  if t_loopback t then on_loopback h w t
  else match t_header t with
       | HMsg m => on_message h w m (t_loopback t) (t_payload t)
       | HReq s => on_request h w (Token (sh_service s) (sh_source s) (sh_tid s) (sh_prio s)) s (t_loopback t) (t_payload t)
       | HResp s => on_response h w s (t_loopback t) (t_payload t)
       end.
(** core.rs:197-209 [receive]: the answers of the receiver one after the other; the result is whether it returned [Ok] *)
Inductive recv_result := RecvTransfer (t : transfer) | RecvNone | RecvError.
Fixpoint core_receive {W} (h : handler W) (answers : list recv_result) (w : W) : bool * W :=
  match answers with
  | [] => (true, w)
  | RecvNone :: _ => (true, w)
  | RecvError :: _ => (false, w)
  | RecvTransfer t :: r => core_receive h r (snd (handle_incoming h t w))
  end.
