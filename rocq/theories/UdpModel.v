(** Model of canadensis_udp/src/{address,tx,tx/breakdown,rx,rx/buildup,rx/subscriptions}.rs. *)
From Verif Require Import Base CrcModel CoreModel TabModel HeaderModel.

(** * Addresses *)

(** address.rs:21-27; 239.0.0.0 *)
Definition MULTICAST_BASE : N := 0xef000000.
Definition MULTICAST_MASK : N := 0xfffe0000.
Definition SERVICE_NOT_MESSAGE_BIT : N := 0x00010000.
Definition SUBJECT_RESERVED_BIT : N := 0x00008000.

(** address.rs:69-74 [Address] *)
Inductive address := ANode (node : N) | AMulticast (subject : N).

(** address.rs:29-42 [From<Address> for Ipv4Addr], as the 32 bits of the address *)
Definition ip_of_address (a : address) : N :=
  match a with
  | ANode n => N.lor (N.lor MULTICAST_BASE SERVICE_NOT_MESSAGE_BIT) n
  | AMulticast s => N.lor MULTICAST_BASE s
  end.

(** address.rs:44-67 [TryFrom<Ipv4Addr> for Address]; canadensis_header/src/lib.rs:362-371 [NodeId16::try_from] *)
Definition address_of_ip (bits : N) : option address :=
  if negb (N.eqb (N.land bits MULTICAST_MASK) MULTICAST_BASE) then None
  else if N.eqb (N.land bits SERVICE_NOT_MESSAGE_BIT) SERVICE_NOT_MESSAGE_BIT then
    match check_node_id (w16 bits) with Some n => Some (ANode n) | None => None end
  else if negb (N.eqb (N.land bits SUBJECT_RESERVED_BIT) 0) then None
  else match try_le MAX_SUBJECT (w16 bits) with Some s => Some (AMulticast s) | None => None end.

(** * Transmission *)

(** lib.rs:51,56 *)
Definition TRANSFER_CRC_SIZE : nat := 4.
Definition MIN_PACKET_SIZE : nat := SIZE + TRANSFER_CRC_SIZE.

(** tx.rs:33-44 [UdpTransmitter::new]: the assertion *)
Definition udp_tx_new (mtu : nat) : res unit := if (SIZE + TRANSFER_CRC_SIZE <? mtu)%nat then Ok tt else Panic.

(** tx/breakdown.rs:346-350 [AddCrc] *)
Record addcrc := AddCrc { ac_inner : list N; ac_crc : N; ac_provided : N }.
Definition addcrc_new (l : list N) : addcrc := AddCrc l crc32_new 0.
(** tx/breakdown.rs:362-395 [AddCrc::next] *)
Definition addcrc_next (a : addcrc) : option N * addcrc :=
  match ac_provided a with
  | 0 => match ac_inner a with
         | b :: r => (Some b, AddCrc r (crc32_digest (ac_crc a) b) 0)
         | [] => (Some (w8 (crc32_get (ac_crc a))), AddCrc [] (ac_crc a) 1)
         end
  | 1 => (Some (w8 (N.shiftr (crc32_get (ac_crc a)) 8)), AddCrc (ac_inner a) (ac_crc a) 2)
  | 2 => (Some (w8 (N.shiftr (crc32_get (ac_crc a)) 16)), AddCrc (ac_inner a) (ac_crc a) 3)
  | 3 => (Some (w8 (N.shiftr (crc32_get (ac_crc a)) 24)), AddCrc (ac_inner a) (ac_crc a) 4)
  | _ => (None, a)
  end.
(** all the bytes the iterator yields; [length + 5] calls reach its end *)
Fixpoint addcrc_drain (fuel : nat) (a : addcrc) : list N :=
  match fuel with
  | O => []
  | S f => match addcrc_next a with (Some b, a') => b :: addcrc_drain f a' | (None, _) => [] end
  end.
Definition add_crc (l : list N) : list N := addcrc_drain (length l + 5) (addcrc_new l).

(** tx/breakdown.rs:37-44 [HeaderBase] *)
Record hbase := HBase { hb_spec : dspec; hb_tid : N; hb_prio : N; hb_data : N }.

(** tx/breakdown.rs:16-34 [Breakdown] without the deadline.  [bd_stream]: the bytes [payload] has not yielded yet.
    The capacity of [current_frame] is always the MTU (assuming that [with_capacity] and [reserve] on an empty vector
    reserve exactly what was asked for). *)
Record bd := Bd { bd_stream : list N; bd_index : N; bd_done : bool; bd_cur : list N }.
Definition bd_new (payload : list N) : bd := Bd (add_crc payload) 0 false (repeat 0 SIZE).

(** tx/breakdown.rs:88-97 [make_header] *)
Definition make_header (hb : hbase) (index : N) (last : bool) : fheader :=
  FH (hb_prio hb) (hb_spec hb) (hb_tid hb) index last (hb_data hb).
(** tx/breakdown.rs:69-85 [take_frame]: the header overwrites the first 24 bytes *)
Definition take_frame (h : fheader) (cur : list N) : list N := header_encode h ++ skipn SIZE cur.

(** tx/breakdown.rs:106-137 [Breakdown::next]: the loop over the payload bytes *)
Fixpoint bd_fill (mtu : nat) (hb : hbase) (stream : list N) (index : N) (cur : list N) : res (option (list N) * bd) :=
  match stream with
  | b :: rest =>
      let cur' := cur ++ [b] in
      if (length cur' =? mtu)%nat then
        let frame := take_frame (make_header hb index (match rest with [] => true | _ => false end)) cur' in
        if negb (N.eqb (N.land (index + 1) LAST_FRAME) 0) then Panic
        else Ok (Some frame, Bd rest (index + 1) false (repeat 0 SIZE))
      else bd_fill mtu hb rest index cur'
  | [] =>
      if negb (length cur =? SIZE)%nat then
        Ok (Some (take_frame (make_header hb index true) cur), Bd [] index true (repeat 0 SIZE))
      else Ok (None, Bd [] index false cur)
  end.
Definition bd_next (mtu : nat) (hb : hbase) (b : bd) : res (option (list N) * bd) :=
  if bd_done b then Ok (None, b) else bd_fill mtu hb (bd_stream b) (bd_index b) (bd_cur b).
(** all the frames of the iterator; each takes at least one byte of the stream *)
Fixpoint bd_collect (fuel : nat) (mtu : nat) (hb : hbase) (b : bd) : res (list (list N)) :=
  match fuel with
  | O => Ok []
  | S f =>
      match bd_next mtu hb b with
      | Panic => Panic
      | Ok (None, _) => Ok []
      | Ok (Some d, b') => match bd_collect f mtu hb b' with Panic => Panic | Ok ds => Ok (d :: ds) end
      end
  end.

(** tx.rs:103-146 [push]: header and destination of a transfer *)
Definition base_of_header (h : header) : hbase :=
  match h with
  | HMsg m => HBase (DSubject (mh_source m) (mh_subject m)) (mh_tid m) (mh_prio m) 0
  | HReq s => HBase (DRequest (sh_source s) (sh_dest s) (sh_service s)) (sh_tid s) (sh_prio s) 0
  | HResp s => HBase (DResponse (sh_source s) (sh_dest s) (sh_service s)) (sh_tid s) (sh_prio s) 0
  end.
Definition dest_of_header (h : header) : address :=
  match h with HMsg m => AMulticast (mh_subject m) | HReq s => ANode (sh_dest s) | HResp s => ANode (sh_dest s) end.

(** tx.rs:46-59 [push_inner]: the datagrams of a transfer *)
Definition udp_datagrams (mtu : nat) (t : transfer) : res (list (list N)) :=
  let b := bd_new (t_payload t) in
  bd_collect (S (length (bd_stream b))) mtu (base_of_header (t_header t)) b.

(** tx.rs:61-81 [send_frames].  [env k]: the clock when the k-th datagram is about to be sent, and whether the socket
    accepts it.  Returns the datagrams the socket accepted and whether all went well. *)
Fixpoint send_frames (env : nat -> N * bool) (deadline : N) (k : nat) (ds : list (list N)) : list (list N) * bool :=
  match ds with
  | [] => ([], true)
  | d :: r =>
      let (now, ok) := env k in
      if t_lt now deadline then
        if ok then let (sent, res) := send_frames env deadline (S k) r in (d :: sent, res)
        else ([], false)
      else send_frames env deadline (S k) r
  end.

(** tx.rs:93-156 [push]: IP address and datagrams sent, and the result *)
Definition udp_push (mtu : nat) (env : nat -> N * bool) (t : transfer) : res (N * list (list N) * bool) :=
  match udp_datagrams mtu t with
  | Panic => Panic
  | Ok ds => let (sent, ok) := send_frames env (h_ts (t_header t)) 0 ds in
             Ok (ip_of_address (dest_of_header (t_header t)), sent, ok)
  end.

(** * Reception *)

(** rx/buildup.rs:20-35 [Buildup]; [bu_cap] is the capacity of [bytes] *)
Record buildup := Bu { bu_cap : nat; bu_bytes : list N; bu_crc : tracker; bu_next : N; bu_prio : N; bu_tid : N }.

(** rx/buildup.rs:50-56, 86-92, rx.rs:447-453: the bytes of a frame go through the CRC tracker into the payload *)
Fixpoint feed (cap : nat) (crc : tracker) (payload : list N) (bs : list N) : tracker * list N :=
  match bs with
  | [] => (crc, payload)
  | b :: r =>
      let (crc', o) := tracker_digest crc b in
      feed cap crc' (match o with
                     | Some x => if (length payload <? cap)%nat then payload ++ [x] else payload
                     | None => payload
                     end) r
  end.

(** rx/buildup.rs:42-65 [Buildup::new], after the allocation.  [frame_index + 1] cannot overflow (31 bits). *)
Definition bu_new (h : fheader) (bs : list N) (max : nat) : buildup :=
  let (crc, bytes) := feed max tracker_new [] bs in
  Bu max bytes crc (fh_index h + 1) (fh_prio h) (fh_tid h).

(** rx/buildup.rs:74-95 [Buildup::push]; [None] is an error (index, transfer ID or priority) *)
Definition bu_push (b : buildup) (h : fheader) (bs : list N) : option buildup :=
  if negb (N.eqb (fh_index h) (bu_next b)) then None
  else if negb (N.eqb (fh_tid h) (bu_tid b)) then None
  else if negb (N.eqb (fh_prio h) (bu_prio b)) then None
  else let (crc, bytes) := feed (bu_cap b) (bu_crc b) (bu_bytes b) bs in
       Some (Bu (bu_cap b) bytes crc (bu_next b + 1) (bu_prio b) (bu_tid b)).

(** canadensis_core/src/session.rs:8-31 [Session], [ActiveSession] with rx.rs:409-411 [UdpSessionData] *)
Record active_session := Act { a_time : N; a_tid : N; a_bu : option buildup }.
Inductive usession := UActive (a : active_session) | UComplete (time tid : N).

(** what rx.rs:430-485 returns: a payload, nothing yet, out of memory, or another error *)
Inductive hf_res := HDone (payload : list N) | HMore | HMemory | HErr.

(** rx.rs:423-485 [ActiveSession::handle_frame].  [palloc]: does [try_reserve_exact] find memory. *)
Definition session_frame (a : active_session) (h : fheader) (bs : list N) (max : nat) (palloc : bool) : active_session * hf_res :=
  if (length bs <? TRANSFER_CRC_SIZE)%nat then (a, HMore)
  else if N.eqb (fh_index h) 0 && fh_last h then
    if negb palloc then (a, HMemory)
    else let (crc, payload) := feed max tracker_new [] bs in
         (a, if tracker_correct crc then HDone payload else HErr)
  else
    let a0 := Act (a_time a) (a_tid a) None in                                             (* buildup.take() *)
    match a_bu a with
    | Some b =>
        match bu_push b h bs with
        | None => (a0, HErr)
        | Some b' =>
            if fh_last h then (a0, if tracker_correct (bu_crc b') then HDone (bu_bytes b') else HErr)
            else (Act (a_time a) (a_tid a) (Some b'), HMore)
        end
    | None => if palloc then (Act (a_time a) (a_tid a) (Some (bu_new h bs max)), HMore) else (a0, HMemory)
    end.

(** rx.rs:265-269 [Subscription].  The session tracker is a map from node IDs to sessions (proved for the three trackers
    of canadensis_core/src/session.rs in TabProps.v); a failing insertion is the parameter [salloc] below. *)
Record usub := USubscription { us_max : nat; us_timeout : N; us_sessions : N -> option usession }.
Definition sess_set (f : N -> option usession) (k : N) (v : option usession) : N -> option usession :=
  fun k' => if N.eqb k k' then v else f k'.

(** what a received datagram leads to: nothing, a transfer, or an out-of-memory error *)
Inductive uout := UNone | UDeliver (t : transfer) | UMemory.

(** rx.rs:368-407 [convert_reassembly_result] *)
Definition convert_result (payload : list N) (h : fheader) (ts : N) : transfer := Transfer (as_core_header h ts) false payload.

(** rx.rs:320-338: the session a frame belongs to.  [now - last] panics when the clock says that [last] is later. *)
Definition session_for (s : option usession) (h : fheader) (now timeout : N) : res (option active_session) :=
  let fresh := Act now (fh_tid h) None in
  match s with
  | None => Ok (Some fresh)
  | Some (UActive a) => Ok (Some a)
  | Some (UComplete last last_tid) =>
      match t_since now last with
      | None => Panic
      | Some age =>
          let sequence_correct := N.ltb last_tid (fh_tid h) in
          if negb (sequence_correct || N.ltb timeout age) then Ok None else Ok (Some fresh)
      end
  end.

(** rx.rs:305-366 [handle_frame_non_anonymous]: new session and result *)
Definition sub_frame (su : usub) (src : N) (h : fheader) (bs : list N) (now : N) (palloc salloc : bool) : res (usub * uout) :=
  let set v := USubscription (us_max su) (us_timeout su) (sess_set (us_sessions su) src v) in
  match us_sessions su src, salloc with
  | None, false => Ok (su, UMemory)
  | s, _ =>
      match session_for s h now (us_timeout su) with
      | Panic => Panic
      | Ok None => Ok (su, UNone)
      | Ok (Some a) =>
          let (a', r) := session_frame a h bs (us_max su) palloc in
          match r with
          | HDone payload => Ok (set (Some (UComplete (a_time a) (a_tid a))), UDeliver (convert_result payload h (a_time a)))
          | HMore => Ok (set (Some (UActive a')), UNone)
          | HMemory | HErr => Ok (set None, UNone)
          end
      end
  end.

(** canadensis_header/src/lib.rs:329-335 [source_node_id] *)
Definition dspec_source (d : dspec) : option N :=
  match d with DSubject f _ => f | DRequest f _ _ => Some f | DResponse f _ _ => Some f end.
Definition dspec_port (d : dspec) : port :=
  match d with DSubject _ s => PMsg s | DRequest _ _ s => PReq s | DResponse _ _ s => PResp s end.

(** rx.rs:280-303 [Subscription::handle_frame] *)
Definition sub_handle (su : usub) (h : fheader) (bs : list N) (now : N) (palloc salloc : bool) : res (usub * uout) :=
  match dspec_source (fh_spec h) with
  | Some src => sub_frame su src h bs now palloc salloc
  | None =>
      let (_, r) := session_frame (Act now (fh_tid h) None) h bs (us_max su) palloc in
      Ok (su, match r with
              | HDone payload => UDeliver (convert_result payload h now)
              | HMore => UNone
              | HMemory => UMemory
              | HErr => UNone
              end)
  end.

(** rx.rs:27-36 [UdpReceiver] (without the local address); rx/subscriptions.rs:9-17 [Subscriptions]: three ordered maps *)
Record urx := URx { ur_node : option N; ur_subs : subs usub }.
(** rx.rs:44-53 *)
Definition urx_new (node : option N) : urx := URx node subs_empty.

(** rx/subscriptions.rs:28-74 *)
Definition subs_put (p : port) (s : usub) (t : subs usub) : subs usub :=
  match p with
  | PMsg k => Subs (bt_insert k s (sb_msg t)) (sb_req t) (sb_resp t)
  | PReq k => Subs (sb_msg t) (bt_insert k s (sb_req t)) (sb_resp t)
  | PResp k => Subs (sb_msg t) (sb_req t) (bt_insert k s (sb_resp t))
  end.
Definition subs_drop (p : port) (t : subs usub) : subs usub :=
  match p with
  | PMsg k => Subs (bt_remove k (sb_msg t)) (sb_req t) (sb_resp t)
  | PReq k => Subs (sb_msg t) (bt_remove k (sb_req t)) (sb_resp t)
  | PResp k => Subs (sb_msg t) (sb_req t) (bt_remove k (sb_resp t))
  end.
(** rx/subscriptions.rs:72-74 [any_service_subscriptions] *)
Definition any_service (t : subs usub) : bool :=
  negb (match sb_req t, sb_resp t with [], [] => true | _, _ => false end).

(** rx.rs:62-123 [accept_inner] after a datagram was read; the socket cuts datagrams to the MTU (the size of the buffer) *)
Definition udp_accept (mtu : nat) (r : urx) (datagram : list N) (now : N) (palloc salloc : bool) : res (urx * uout) :=
  let buffer := firstn mtu datagram in
  if (length buffer <? MIN_PACKET_SIZE)%nat then Ok (r, UNone)
  else match header_decode (firstn SIZE buffer) with
  | None => Ok (r, UNone)
  | Some h =>
      let p := dspec_port (fh_spec h) in
      match subs_find p (ur_subs r) with
      | None => Ok (r, UNone)
      | Some su =>
          match sub_handle su h (skipn SIZE buffer) now palloc salloc with
          | Panic => Panic
          | Ok (su', o) => Ok (URx (ur_node r) (subs_update p (fun _ => su') (ur_subs r)), o)
          end
      end
  end.

(** calls of [join_multicast_v4] and [leave_multicast_v4] on the socket, with the address and whether they succeed *)
Inductive gcall := Join (ip : N) (ok : bool) | Leave (ip : N) (ok : bool).
(** result of a subscribe call *)
Inductive usubres := SubOk | SubSocket | SubAnonymous.

(** rx.rs:182-195, 202-218, 225-241 [subscribe_*], with [service_subscribe_check_multicast] (125-136).  [jok]: does the
    socket accept the join. *)
Definition udp_subscribe (r : urx) (p : port) (max : nat) (timeout : N) (jok : bool) : urx * usubres * list gcall :=
  let sub := USubscription max timeout (fun _ => None) in
  let put := URx (ur_node r) (subs_put p sub (ur_subs r)) in
  match p with
  | PMsg subject =>
      let c := Join (ip_of_address (AMulticast subject)) jok in
      if jok then (put, SubOk, [c]) else (r, SubSocket, [c])
  | _ =>
      match ur_node r with
      | Some n =>
          if any_service (ur_subs r) then (put, SubOk, [])
          else let c := Join (ip_of_address (ANode n)) jok in
               if jok then (put, SubOk, [c]) else (r, SubSocket, [c])
      | None => (r, SubAnonymous, [])
      end
  end.

(** rx.rs:197-200, 220-223, 243-246 [unsubscribe_*], with [service_unsubscribe_check_multicast] (138-149) *)
Definition udp_unsubscribe (r : urx) (p : port) (lok : bool) : urx * list gcall :=
  let r' := URx (ur_node r) (subs_drop p (ur_subs r)) in
  match p with
  | PMsg subject => (r', [Leave (ip_of_address (AMulticast subject)) lok])
  | _ =>
      match ur_node r with
      | Some n => if any_service (ur_subs r') then (r', []) else (r', [Leave (ip_of_address (ANode n)) lok])
      | None => (r', [])
      end
  end.

(** rx.rs:248-250 [set_id], 252-258 [subscribers], [servers] *)
Definition udp_set_id (r : urx) (id : option N) : urx := URx id (ur_subs r).
Definition udp_subscribers (r : urx) : list N := map fst (sb_msg (ur_subs r)).
Definition udp_servers (r : urx) : list N := map fst (sb_req (ur_subs r)).

(** what the socket can answer, with the clock and allocators at that moment *)
Inductive udgram := UPacket (d : list N) (now : N) (palloc salloc : bool) | UWouldBlock | USockErr.
Inductive ureceived := RNothing | RTransfer (t : transfer) | RMemory | RSocket.
(** rx.rs:162-180 [receive]: the answers of the socket are a list (its end is "would block"); returns the receiver, the
    result and the answers not consumed *)
Fixpoint udp_receive (mtu : nat) (r : urx) (ds : list udgram) : res (urx * ureceived * list udgram) :=
  match ds with
  | [] => Ok (r, RNothing, [])
  | UPacket d now palloc salloc :: rest =>
      match udp_accept mtu r d now palloc salloc with
      | Panic => Panic
      | Ok (r', UNone) => udp_receive mtu r' rest
      | Ok (r', UDeliver t) => Ok (r', RTransfer t, rest)
      | Ok (r', UMemory) => Ok (r', RMemory, rest)
      end
  | UWouldBlock :: rest => Ok (r, RNothing, rest)
  | USockErr :: rest => Ok (r, RSocket, rest)
  end.
