(** Model of canadensis_serial/src/{tx,rx,header_collector}.rs. *)
From Verif Require Import Base CrcModel CoreModel TabModel CobsModel HeaderModel.

(** * Transmitter *)

(** tx.rs:18,20,22 *)
Definition PER_FRAME_ESCAPED_OVERHEAD : nat := SIZE + 4.
Definition PER_FRAME_UNESCAPED_OVERHEAD : nat := 1 + 1.
Definition DELIMITER : N := 0.

(** tx.rs:141-143 with the [unwrap] of 98-102; the queue is a [heapless::Deque] with capacity [cap] *)
Definition push_back (cap : nat) (q : list N) (b : N) : res (list N) :=
  if (length q <? cap)%nat then Ok (q ++ [b]) else Panic.
Fixpoint push_all (cap : nat) (q bs : list N) : res (list N) :=
  match bs with
  | [] => Ok q
  | b :: r => match push_back cap q b with Panic => Panic | Ok q' => push_all cap q' r end
  end.

(** tx.rs:83-88: header, payload and payload CRC *)
Definition frame_data (t : transfer) : list N :=
  header_encode (of_core_header (t_header t)) ++ t_payload t ++ le_bytes 4 (crc32 (t_payload t)).

(** tx.rs:57-105 [push].  [alloc]: does [try_reserve_exact] find memory.  [Ok (true, q)] is [Ok(())], [Ok (false, q)]
    is an out-of-memory error, both with the queue afterwards.  The subtraction [capacity - len] and the two
    [unwrap]/[expect] calls are explicit panics. *)
Definition serial_push (cap : nat) (q : list N) (t : transfer) (alloc : bool) : res (bool * list N) :=
  let frame_length := (length (t_payload t) + PER_FRAME_ESCAPED_OVERHEAD)%nat in
  let escaped_length := escaped_size frame_length in
  let length_on_wire := (escaped_length + PER_FRAME_UNESCAPED_OVERHEAD)%nat in
  if (cap <? length q)%nat then Panic else
  if (cap - length q <? length_on_wire)%nat then Ok (false, q) else
  if negb alloc then Ok (false, q) else
  match escape_from_iter (frame_data t) (repeat 0 escaped_length) with
  | None => Panic
  | Some (n, buf) =>
      if (cap - length q <? n + PER_FRAME_UNESCAPED_OVERHEAD)%nat then Ok (false, q) else
      match push_all cap q ([DELIMITER] ++ firstn n buf ++ [DELIMITER]) with
      | Panic => Panic
      | Ok q' => Ok (true, q')
      end
  end.

(** What a driver's [send_byte] can answer *)
Inductive dres := DOk | DWouldBlock | DErr.

(** tx.rs:107-125 [flush] for an arbitrary driver, given as a state and a function.  Returns the queue, the driver and
    the result.  [push_front] cannot fail because the byte has just been removed (the capacity is not modelled here). *)
Fixpoint serial_flush {D} (send : D -> N -> D * dres) (d : D) (q : list N) : list N * D * dres :=
  match q with
  | [] => ([], d, DOk)
  | b :: r =>
      match send d b with
      | (d', DOk) => serial_flush send d' r
      | (d', e) => (b :: r, d', e)
      end
  end.

(** * Receiver *)

(** rx.rs:443-446 [Session] *)
Record session := Session { se_exp : N; se_tid : N }.

(** rx.rs:404-413 [Subscription]; the hash map of sessions is an association list *)
Record subscription := Subscription { ss_max : nat; ss_timeout : N; ss_sessions : list (N * session) }.

(** rx.rs:416-422 *)
Definition subscription_new (max : nat) (timeout : N) : subscription := Subscription max timeout [].

(** the hash map operations [insert] and [remove] *)
Definition sess_insert (k : N) (v : session) (l : list (N * session)) : list (N * session) :=
  if has k l then update k (fun _ => v) l else l ++ [(k, v)].
Definition sess_remove (k : N) (l : list (N * session)) : list (N * session) :=
  filter (fun '(k', _) => negb (N.eqb k' k)) l.

(** rx.rs:428-432: the last expired session found by the iteration *)
Definition last_expired (now : N) (l : list (N * session)) : option N :=
  fold_left (fun acc '(k, s) => if t_lt (se_exp s) now then Some k else acc) l None.

(** rx.rs:425-440 [clean_expired_sessions]; every round removes a session, so [length] rounds and one check suffice *)
Fixpoint clean_loop (fuel : nat) (now : N) (l : list (N * session)) : list (N * session) :=
  match fuel with
  | O => l
  | S f => match last_expired now l with Some k => clean_loop f now (sess_remove k l) | None => l end
  end.
Definition sub_clean (now : N) (s : subscription) : subscription :=
  Subscription (ss_max s) (ss_timeout s) (clean_loop (length (ss_sessions s)) now (ss_sessions s)).

(** rx.rs:449-473 [State]; the header collector is the list of bytes collected so far; [cap] is the capacity reserved
    for the payload vector *)
Inductive rxstate :=
| SIdle
| SBetween
| SHeader (u : unesc) (hdr : list N)
| SPayload (u : unesc) (h : header) (crc : tracker) (cap : nat) (payload : list N).

(** rx.rs:23-29 [SerialReceiver] *)
Record rx := Rx { rx_state : rxstate; rx_node : option N; rx_subs : subs subscription }.

(** rx.rs:37-54 *)
Definition rx_new (node : option N) : rx := Rx SIdle node subs_empty.

(** header_collector.rs:28-31 [push]: panics when the 24 bytes are already there *)
Definition hdr_push (hdr : list N) (b : N) : res (list N) :=
  if (length hdr <? SIZE)%nat then Ok (hdr ++ [b]) else Panic.

Definition opt_N_eqb (a b : option N) : bool :=
  match a, b with Some x, Some y => N.eqb x y | None, None => true | _, _ => false end.

(** rx.rs:339-366 [is_interested] *)
Definition is_interested (r : rx) (h : header) : option subscription :=
  match subs_find (h_port h) (rx_subs r) with
  | None => None
  | Some sub =>
      match h_source h with
      | Some source =>
          match lookup source (ss_sessions sub) with
          | Some s => if N.ltb (se_tid s) (h_tid h) then Some sub else None
          | None => Some sub
          end
      | None => Some sub
      end
  end.

(** rx.rs:309-334 [find_subscription_mut]: does it find a subscription *)
Definition find_subscription (r : rx) (h : header) : option subscription :=
  match h with
  | HMsg _ => subs_find (h_port h) (rx_subs r)
  | HReq s => if opt_N_eqb (rx_node r) (Some (sh_dest s)) then subs_find (h_port h) (rx_subs r) else None
  | HResp s => if opt_N_eqb (rx_node r) (Some (sh_dest s)) then subs_find (h_port h) (rx_subs r) else None
  end.

(** What a call on the receiver reports *)
Inductive rxout := ONone | ODeliver (t : transfer) | OMemory | OAnonymous.

(** rx.rs:368-401 [complete_transfer]; [salloc]: does the session insert find memory *)
Definition complete_transfer (r : rx) (h : header) (payload : list N) (crc : tracker) (salloc : bool) : rx * rxout :=
  if negb (tracker_correct crc) then (r, ONone)
  else match find_subscription r h with
  | None => (r, ONone)
  | Some sub =>
      let r' :=
        match h_source h with
        | Some source =>
            if salloc then
              let s := Session (t_add (h_ts h) (ss_timeout sub)) (h_tid h) in
              Rx (rx_state r) (rx_node r)
                 (subs_update (h_port h)
                    (fun sub => Subscription (ss_max sub) (ss_timeout sub) (sess_insert source s (ss_sessions sub)))
                    (rx_subs r))
            else r
        | None => r
        end in
      (r', ODeliver (Transfer h false payload))
  end.

Definition set_state (r : rx) (s : rxstate) : rx := Rx s (rx_node r) (rx_subs r).

(** rx.rs:65-201 [handle_byte].  [alloc]: does [try_reserve_exact] find memory for the payload. *)
Definition handle_byte (r : rx) (byte now : N) (alloc salloc : bool) : res (rx * rxout) :=
  match rx_state r with
  | SIdle => Ok (set_state r (if N.eqb byte 0 then SBetween else SIdle), ONone)                  (* 72-78 *)
  | SBetween =>                                                                                  (* 79-101 *)
      if negb (N.eqb byte 0) then
        match unesc_accept unesc_new byte with
        | UOk u (Some b) =>
            match hdr_push [] b with
            | Panic => Panic
            | Ok hdr => Ok (set_state r (SHeader u hdr), ONone)
            end
        | UOk u None => Ok (set_state r (SHeader u []), ONone)
        | UErr => Panic                                                                          (* unreachable! *)
        end
      else Ok (set_state r SBetween, ONone)
  | SHeader u hdr =>                                                                             (* 102-161 *)
      match unesc_accept u byte with
      | UOk u' (Some b) =>
          match hdr_push hdr b with
          | Panic => Panic
          | Ok hdr' =>
              if (length hdr' =? SIZE)%nat then
                match header_decode hdr' with
                | Some fh =>
                    let h := as_core_header fh now in
                    match is_interested r h with
                    | Some sub =>
                        if alloc then Ok (set_state r (SPayload u' h tracker_new (ss_max sub) []), ONone)
                        else Ok (set_state r SIdle, OMemory)
                    | None => Ok (set_state r SIdle, ONone)
                    end
                | None => Ok (set_state r SIdle, ONone)
                end
              else Ok (set_state r (SHeader u' hdr'), ONone)
          end
      | UOk u' None => Ok (set_state r (SHeader u' hdr), ONone)
      | UErr => Ok (set_state r SIdle, ONone)
      end
  | SPayload u h crc cap payload =>                                                              (* 162-198 *)
      match unesc_accept u byte with
      | UOk u' (Some b) =>
          let '(crc', before) := tracker_digest crc b in
          let payload' :=
            match before with
            | Some x => if (length payload <? cap)%nat then payload ++ [x] else payload
            | None => payload
            end in
          Ok (set_state r (SPayload u' h crc' cap payload'), ONone)
      | UOk u' None => Ok (set_state r (SPayload u' h crc cap payload), ONone)
      | UErr => Ok (complete_transfer (set_state r SBetween) h payload crc salloc)
      end
  end.

(** rx.rs:56-63 [clean_expired_sessions] *)
Definition rx_clean (r : rx) (now : N) : rx := Rx (rx_state r) (rx_node r) (subs_map (sub_clean now) (rx_subs r)).

(** rx.rs:233-243, 249-263, 269-283 [subscribe_*]; services need a node ID *)
Definition rx_subscribe (r : rx) (p : port) (max : nat) (timeout : N) (alloc : bool) : rx * rxout :=
  let go :=
    let '(ok, s) := subs_subscribe p (subscription_new max timeout) alloc (rx_subs r) in
    (Rx (rx_state r) (rx_node r) s, if ok then ONone else OMemory) in
  match p, rx_node r with
  | PMsg _, _ => go
  | _, Some _ => go
  | _, None => (r, OAnonymous)
  end.
(** rx.rs:245-247, 265-267, 285-287 *)
Definition rx_unsubscribe (r : rx) (p : port) : rx := Rx (rx_state r) (rx_node r) (subs_unsubscribe p (rx_subs r)).
(** rx.rs:289-291 *)
Definition rx_set_id (r : rx) (id : option N) : rx := Rx (rx_state r) id (rx_subs r).

(** What the receiving driver can answer, with the clock and allocator at that moment *)
Inductive dbyte := BByte (b now : N) (alloc salloc : bool) | BWouldBlock | BErr.

(** rx.rs:214-231 [receive]: the answers of the driver are a list (its end is "would block"); returns the receiver,
    the result and the answers not consumed.  Driver errors are reported like "nothing received". *)
Fixpoint receive_loop (r : rx) (ds : list dbyte) : res (rx * rxout * list dbyte) :=
  match ds with
  | [] => Ok (r, ONone, [])
  | BByte b now alloc salloc :: rest =>
      match handle_byte r b now alloc salloc with
      | Panic => Panic
      | Ok (r', ONone) => receive_loop r' rest
      | Ok (r', o) => Ok (r', o, rest)
      end
  | _ :: rest => Ok (r, ONone, rest)
  end.
Definition receive (r : rx) (now : N) (ds : list dbyte) : res (rx * rxout * list dbyte) :=
  receive_loop (rx_clean r now) ds.

(** Everything that can happen to a receiver *)
Inductive rxop :=
| XClean (now : N)                               (* the first statement of a [receive] call *)
| XByte (b now : N) (alloc salloc : bool)        (* one byte handled by a [receive] call *)
| XSub (p : port) (max : nat) (timeout : N) (alloc : bool)
| XUnsub (p : port)
| XSetId (id : option N).

Definition rx_step (r : rx) (op : rxop) : res (rx * rxout) :=
  match op with
  | XClean now => Ok (rx_clean r now, ONone)
  | XByte b now alloc salloc => handle_byte r b now alloc salloc
  | XSub p max timeout alloc => Ok (rx_subscribe r p max timeout alloc)
  | XUnsub p => Ok (rx_unsubscribe r p, ONone)
  | XSetId id => Ok (rx_set_id r id, ONone)
  end.

(** A history of operations: the receiver at the end and what each operation reported *)
Fixpoint rx_run (r : rx) (ops : list rxop) : res (rx * list rxout) :=
  match ops with
  | [] => Ok (r, [])
  | op :: rest =>
      match rx_step r op with
      | Panic => Panic
      | Ok (r', o) =>
          match rx_run r' rest with
          | Panic => Panic
          | Ok (r'', os) => Ok (r'', o :: os)
          end
      end
  end.
