(** Model of CAN reception: canadensis_can/src/rx.rs and rx/{buildup,session,subscription}.rs.
    Each frame comes with one allocation result: handling a frame makes at most one kind of allocation, and every failure
    is reported in the same way.  Log output is not modelled. *)
From Verif Require Import Base CoreModel CrcModel FilterModel CanIdModel CanTxModel CanQueueModel.

(** ** rx/buildup.rs *)
(** 12-30 [Buildup].  The frame counter, which nothing reads, is left out.  [bu_size] is a [usize]; that it does not
    overflow is assumed.  The capacity of the vector is assumed to be exactly what was reserved. *)
Record buildup := Buildup {
  bu_size : nat; bu_start : bool; bu_toggle : bool; bu_data : list N; bu_cap : nat; bu_crc : N }.
(** 37-49 [Buildup::new], when the allocation succeeds *)
Definition bu_new (max : nat) : buildup := Buildup O true true [] max crc16_new.

Inductive bu_out := BuMore | BuDone (payload : list N) | BuCrc.

(** 59-105 [Buildup::add].  The subtraction in line 87 panics below zero when overflow checks are on. *)
Definition bu_add (b : buildup) (data : list N) : res (buildup * bu_out) :=
  match rev data with
  | [] => Panic
  | last :: _ =>
      let tail := parse_tail last in
      if negb (Bool.eqb (tl_start tail) (bu_start b)) then Ok (b, BuMore)
      else if negb (Bool.eqb (tl_toggle tail) (bu_toggle b)) then Ok (b, BuMore)
      else
        let body := firstn (length data - 1) data in
        let copied := Nat.min (bu_cap b - length (bu_data b)) (length body) in
        let data' := bu_data b ++ firstn copied body in
        let crc := crc16_digest_bytes (bu_crc b) body in
        let size := (bu_size b + length body)%nat in
        let cut := tl_end tail && negb (tl_start tail) in
        if cut && (size <? 2)%nat then Panic
        else
          let size' := if cut then (size - 2)%nat else size in
          let b' := Buildup size' false (negb (bu_toggle b)) data' (bu_cap b) crc in
          if tl_end tail then
            if (tl_start tail && tl_end tail) || (crc =? 0) then Ok (b', BuDone (firstn size' data'))
            else Ok (b', BuCrc)
          else Ok (b', BuMore)
  end.

(** ** rx/session.rs *)
(** 14-21 [Session] *)
Record session := Session { se_ts : N; se_loop : bool; se_bu : buildup }.
Inductive se_out := SeMore | SeDone (t : transfer) | SeErr.
(** 57-89 [accept], [handle_transfer_data] *)
Definition se_accept (s : session) (f : frame) (h : header) : res (session * se_out) :=
  if negb (Bool.eqb (f_loop f) (se_loop s)) then Ok (s, SeMore)
  else match bu_add (se_bu s) (f_data f) with
       | Panic => Panic
       | Ok (b, r) =>
           let s' := Session (se_ts s) (se_loop s) b in
           match r with
           | BuMore => Ok (s', SeMore)
           | BuCrc => Ok (s', SeErr)
           | BuDone payload => Ok (s', SeDone (Transfer (h_set_ts h (se_ts s)) (se_loop s) payload))
           end
       end.

(** ** rx/subscription.rs *)
(** 22-26 [SessionState] *)
Record sstate := SState { ss_expected : N; ss_last : option N; ss_session : option session }.
(** 287-295 *)
Definition sstate_new : sstate := SState 0 None None.

Inductive sub_out := SubNone | SubDone (t : transfer) | SubNotStart | SubSession | SubMemory.

(** 306-312 [flag_successful_transfer], on the state of one node *)
Definition flag_success (s : sstate) (ts : N) : sstate := SState (tid_incr (ss_expected s)) (Some ts) None.
(** 117-131 [has_transfer_id_timed_out] *)
Definition tid_timed_out (timeout : N) (s : sstate) (ts : N) : bool :=
  match ss_last s with
  | None => true
  | Some t => match t_since ts t with Some age => timeout <? age | None => true end
  end.

(** 162-223 [accept_with_session], on the state of one node; [mem] is false when [Session::boxed] cannot allocate *)
Definition accept_with_session (max : nat) (mem : bool) (s : sstate) (f : frame) (h : header) (tail : tail) : res (sstate * sub_out) :=
  let run (se : session) :=
    match se_accept se f h with
    | Panic => Panic
    | Ok (se', SeDone t) => Ok (flag_success (SState (ss_expected s) (ss_last s) (Some se')) (se_ts se'), SubDone t)
    | Ok (se', SeMore) => Ok (SState (ss_expected s) (ss_last s) (Some se'), SubNone)
    | Ok (se', SeErr) => Ok (SState (ss_expected s) (ss_last s) None, SubSession)
    end in
  match ss_session s with
  | Some se => run se
  | None =>
      if negb (tl_start tail) then Ok (s, SubNotStart)
      else if negb mem then Ok (s, SubMemory)
      else run (Session (h_ts h) (f_loop f) (bu_new max))
  end.

(** 133-160 [accept_non_anonymous]; [frame.data().len() - 1] underflows for an empty frame *)
Definition accept_non_anonymous (max : nat) (mem : bool) (s : sstate) (f : frame) (h : header) (tail : tail) : res (sstate * sub_out) :=
  if tl_start tail && tl_end tail then
    if (length (f_data f) =? 0)%nat then Panic
    else
      let usable := Nat.min max (length (f_data f) - 1) in
      if negb mem then Ok (s, SubMemory)
      else Ok (flag_success s (f_ts f), SubDone (Transfer h (f_loop f) (firstn usable (f_data f))))
  else accept_with_session max mem s f h tail.

(** 92-115 [checked_accept_non_anonymous] *)
Definition checked_accept (timeout : N) (max : nat) (mem : bool) (s : sstate) (f : frame) (h : header) (tail : tail) : res (sstate * sub_out) :=
  if tl_tid tail =? ss_expected s then accept_non_anonymous max mem s f h tail
  else if (tid_incr (tl_tid tail) =? ss_expected s) && negb (tid_timed_out timeout s (f_ts f)) then Ok (s, SubNone)
  else accept_non_anonymous max mem (SState (tl_tid tail) (ss_last s) None) f h tail.

(** 225-244 [accept_anonymous] *)
Definition accept_anonymous (mem : bool) (f : frame) (h : header) : res sub_out :=
  if (length (f_data f) =? 0)%nat then Panic
  else if negb mem then Ok SubMemory
  else Ok (SubDone (Transfer h (f_loop f) (firstn (length (f_data f) - 1) (f_data f)))).

(** 32-50 [Subscription]; the array of 128 states is a function of the node ID, which the type [CanNodeId] keeps below
    128.  The port carries the transfer kind, see [can_rx]. *)
Record subscription := Subscription { su_port : port; su_timeout : N; su_max : nat; su_states : N -> sstate }.
(** 68-75 [Subscription::new] *)
Definition su_new (p : port) (timeout : N) (max : nat) : subscription := Subscription p timeout max (fun _ => sstate_new).
Definition su_set (su : subscription) (source : N) (s : sstate) : subscription :=
  Subscription (su_port su) (su_timeout su) (su_max su) (fun n => if n =? source then s else su_states su n).

(** 78-89 [accept] *)
Definition su_accept (su : subscription) (mem : bool) (f : frame) (h : header) (tail : tail) : res (subscription * sub_out) :=
  match h_source h with
  | Some source =>
      match checked_accept (su_timeout su) (su_max su) mem (su_states su source) f h tail with
      | Panic => Panic
      | Ok (s, o) => Ok (su_set su source s, o)
      end
  | None => match accept_anonymous mem f h with Panic => Panic | Ok o => Ok (su, o) end
  end.

(** ** rx.rs *)
(** 29-51 [CanReceiver].  The code keeps three vectors of subscriptions, one for each kind of transfer; here they are one
    list, and the port of a subscription tells the kind. *)
Record can_rx := CanRx { rx_id : option N; rx_subs : list subscription; rx_transfers : N; rx_errors : N }.
(** 238-260 [new], [new_anonymous] *)
Definition rx_new (id : option N) : can_rx := CanRx id [] 0 0.
(** 207-209 [set_id] *)
Definition rx_set_id (r : can_rx) (id : option N) : can_rx := CanRx id (rx_subs r) (rx_transfers r) (rx_errors r).

(** 346-365 [frame_sanity_check] *)
Definition frame_check (f : frame) : res (option (header * tail)) :=
  match rev (f_data f) with
  | [] => Ok None
  | last :: _ =>
      let tail := parse_tail last in
      match parse_can_id (f_id f) (f_ts f) (tl_tid tail) with
      | Panic => Panic
      | Ok None => Ok None
      | Ok (Some h) =>
          let anonymous := match h with HMsg m => match mh_source m with None => true | Some _ => false end | _ => false end in
          if anonymous && negb (tl_toggle tail && tl_start tail && tl_end tail) then Ok None
          else Ok (Some (h, tail))
      end
  end.

(** 299-304 [can_accept_service] *)
Definition can_accept_service (r : can_rx) (dest : N) : bool :=
  match rx_id r with Some id => id =? dest | None => false end.

Inductive rx_out := RxNone | RxTransfer (t : transfer) | RxMemory.

(** the first subscription for a port is the one that handles the frame (315-318) *)
Fixpoint subs_accept (subs : list subscription) (mem : bool) (f : frame) (h : header) (tail : tail) : res (list subscription * option sub_out) :=
  match subs with
  | [] => Ok ([], None)
  | su :: rest =>
      if port_eqb (su_port su) (h_port h) then
        match su_accept su mem f h tail with
        | Panic => Panic
        | Ok (su', o) => Ok (su' :: rest, Some o)
        end
      else match subs_accept rest mem f h tail with
           | Panic => Panic
           | Ok (rest', o) => Ok (su :: rest', o)
           end
  end.

(** 307-342 [accept_sane_frame] *)
Definition accept_sane (r : can_rx) (mem : bool) (f : frame) (h : header) (tail : tail) : res (can_rx * rx_out) :=
  match subs_accept (rx_subs r) mem f h tail with
  | Panic => Panic
  | Ok (subs, o) =>
      match o with
      | None | Some SubNone => Ok (CanRx (rx_id r) subs (rx_transfers r) (rx_errors r), RxNone)
      | Some (SubDone t) => Ok (CanRx (rx_id r) subs (w64 (rx_transfers r + 1)) (rx_errors r), RxTransfer t)
      | Some SubMemory => Ok (CanRx (rx_id r) subs (rx_transfers r) (w64 (rx_errors r + 1)), RxMemory)
      | Some SubNotStart | Some SubSession => Ok (CanRx (rx_id r) subs (rx_transfers r) (w64 (rx_errors r + 1)), RxNone)
      end
  end.

(** 273-295 [accept_frame] *)
Definition accept_frame (r : can_rx) (mem : bool) (f : frame) : res (can_rx * rx_out) :=
  match frame_check f with
  | Panic => Panic
  | Ok None => Ok (CanRx (rx_id r) (rx_subs r) (rx_transfers r) (w64 (rx_errors r + 1)), RxNone)
  | Ok (Some (h, tail)) =>
      let refused := match h with
                     | HMsg _ => false
                     | HReq s | HResp s => negb (f_loop f || can_accept_service r (sh_dest s))
                     end in
      if refused then Ok (r, RxNone) else accept_sane r mem f h tail
  end.

(** 62-81 [receive]: the driver hands over frames, each with its allocation result, until it has none left *)
Fixpoint can_receive (r : can_rx) (incoming : list (frame * bool)) : res (can_rx * list (frame * bool) * rx_out) :=
  match incoming with
  | [] => Ok (r, [], RxNone)
  | (f, mem) :: rest =>
      match accept_frame r mem f with
      | Panic => Panic
      | Ok (r', RxNone) => can_receive r' rest
      | Ok (r', o) => Ok (r', rest, o)
      end
  end.

(** 390-393 [unsubscribe] *)
Definition rx_unsubscribe (r : can_rx) (p : port) : can_rx :=
  CanRx (rx_id r) (filter (fun su => negb (port_eqb (su_port su) p)) (rx_subs r)) (rx_transfers r) (rx_errors r).
(** 367-389 [subscribe]; a vector that has just lost an element has room for one, so then the allocation cannot fail *)
Definition rx_subscribe (r : can_rx) (p : port) (timeout : N) (max : nat) (mem : bool) : can_rx * bool :=
  let r1 := rx_unsubscribe r p in
  if (length (rx_subs r1) <? length (rx_subs r))%nat || mem
  then (CanRx (rx_id r1) (rx_subs r1 ++ [su_new p timeout max]) (rx_transfers r1) (rx_errors r1), true)
  else (r1, false).

Inductive subscribe_res := SubscribeOk | SubscribeMemory | SubscribeAnonymous.
(** 94-110 [subscribe_message], 132-153 [subscribe_request], 175-196 [subscribe_response], without the call of
    [apply_frame_filters] (see [rx_filters]) *)
Definition rx_subscribe_port (r : can_rx) (p : port) (timeout : N) (max : nat) (mem : bool) : can_rx * subscribe_res :=
  match p, rx_id r with
  | PReq _, None | PResp _, None => (r, SubscribeAnonymous)
  | _, _ => let (r', ok) := rx_subscribe r p timeout max mem in (r', if ok then SubscribeOk else SubscribeMemory)
  end.

(** 422-436 [apply_frame_filters]: what the driver is given, messages first, then requests, then responses *)
Definition rx_filters (r : can_rx) : option N * list port :=
  let ports := map su_port (rx_subs r) in
  (rx_id r,
   filter (fun p => match p with PMsg _ => true | _ => false end) ports ++
   filter (fun p => match p with PReq _ => true | _ => false end) ports ++
   filter (fun p => match p with PResp _ => true | _ => false end) ports).
(** 214-227 [subscribers], [servers] *)
Definition rx_subscribers (r : can_rx) : list N := flat_map (fun su => match su_port su with PMsg s => [s] | _ => [] end) (rx_subs r).
Definition rx_servers (r : can_rx) : list N := flat_map (fun su => match su_port su with PReq s => [s] | _ => [] end) (rx_subs r).
