(** Specification for the UDP transport: datagrams, histories of a receiver, group membership. *)
From Verif Require Import Base CoreModel CrcModel TabModel HeaderModel HeaderSpec UdpModel.

(** ** Transmission *)

(** Datagram number [i] of [n]: header fields, and the rest of the datagram. *)
Definition datagram_of (h : header) (i : nat) (last : bool) (body d : list N) : Prop :=
  d = firstn 24 d ++ body /\ length (firstn 24 d) = 24%nat /\
  exists f, header_decode (firstn 24 d) = Some f /\ as_core_header f (h_ts h) = h /\
            fh_index f = N.of_nat i /\ fh_last f = last /\ fh_data f = 0.

(** [ds] are the datagrams of the transfer [t] for the given MTU. *)
Definition udp_segmented (mtu : nat) (t : transfer) (ds : list (list N)) : Prop :=
  exists bodies,
    concat bodies = t_payload t ++ le_bytes 4 (crc32 (t_payload t)) /\
    bodies <> [] /\ length ds = length bodies /\
    (forall i body, nth_error bodies i = Some body ->
       (0 < length body)%nat /\ (24 + length body <= mtu)%nat /\
       ((S i < length bodies)%nat -> (24 + length body = mtu)%nat) /\
       exists d, nth_error ds i = Some d /\ datagram_of (t_header t) i (S i =? length bodies)%nat body d).

(** ** Histories of a receiver *)

Inductive udp_op :=
| ODatagram (d : list N) (now : N) (palloc salloc : bool)
| OSub (p : port) (max : nat) (timeout : N) (jok : bool)
| OUnsub (p : port) (lok : bool)
| OSetId (id : option N).
Inductive udp_out :=
| GGot (o : uout)
| GSubbed (o : usubres) (calls : list gcall)
| GUnsubbed (calls : list gcall)
| GDone.

Definition udp_step (mtu : nat) (r : urx) (op : udp_op) : res (urx * udp_out) :=
  match op with
  | ODatagram d now palloc salloc =>
      match udp_accept mtu r d now palloc salloc with Panic => Panic | Ok (r', o) => Ok (r', GGot o) end
  | OSub p max timeout jok => let '(r', o, c) := udp_subscribe r p max timeout jok in Ok (r', GSubbed o c)
  | OUnsub p lok => let (r', c) := udp_unsubscribe r p lok in Ok (r', GUnsubbed c)
  | OSetId id => Ok (udp_set_id r id, GDone)
  end.
Fixpoint udp_run (mtu : nat) (r : urx) (ops : list udp_op) : res (urx * list udp_out) :=
  match ops with
  | [] => Ok (r, [])
  | op :: rest =>
      match udp_step mtu r op with
      | Panic => Panic
      | Ok (r1, o) => match udp_run mtu r1 rest with Panic => Panic | Ok (r2, os) => Ok (r2, o :: os) end
      end
  end.

(** What the Rust types allow: bytes, 32-bit time. *)
Definition udp_op_ok (op : udp_op) : Prop :=
  match op with ODatagram d now _ _ => bytes_ok d /\ now < 2 ^ 32 | _ => True end.

(** Histories of a receiver created with the node ID [id], latest event first, and the state reached. *)
Definition uhistory := list (udp_op * udp_out).
Inductive udp_hist (mtu : nat) (id : option N) : uhistory -> urx -> Prop :=
| uh_new : udp_hist mtu id [] (urx_new id)
| uh_step : forall h r op r' o, udp_hist mtu id h r -> udp_op_ok op -> udp_step mtu r op = Ok (r', o) ->
    udp_hist mtu id ((op, o) :: h) r'.

(** The node ID in force. *)
Fixpoint udp_node (id : option N) (h : uhistory) : option N :=
  match h with
  | [] => id
  | (OSetId n, _) :: _ => n
  | _ :: h' => udp_node id h'
  end.

(** The subscription in force for a port: maximum payload size and transfer-ID timeout. *)
Fixpoint udp_active (p : port) (h : uhistory) : option (nat * N) :=
  match h with
  | [] => None
  | (OSub p' max timeout _, o) :: h' =>
      if port_eqb p' p then
        match o with
        | GSubbed SubOk _ => Some (max, timeout)
        | _ => udp_active p h'                        (* refused: nothing changed *)
        end
      else udp_active p h'
  | (OUnsub p' _, _) :: h' => if port_eqb p' p then None else udp_active p h'
  | _ :: h' => udp_active p h'
  end.

(** The header and the body of a datagram as a receiver with this MTU sees it, if it is long enough and valid. *)
Definition parsed (mtu : nat) (d : list N) : option (fheader * list N) :=
  let b := firstn mtu d in
  if (length b <? 28)%nat then None
  else match header_decode (firstn 24 b) with Some f => Some (f, skipn 24 b) | None => None end.

(** A datagram from node [s] on port [p]. *)
Definition is_from (p : port) (s : N) (f : fheader) : Prop :=
  h_port (as_core_header f 0) = p /\ h_source (as_core_header f 0) = Some s.
Definition is_fromb (p : port) (s : N) (f : fheader) : bool :=
  port_eqb (h_port (as_core_header f 0)) p &&
  match h_source (as_core_header f 0) with Some s' => N.eqb s' s | None => false end.

(** The datagrams from [s] on port [p], in the order received, with their times, since the subscription to [p] was made. *)
Fixpoint heard (mtu : nat) (p : port) (s : N) (h : uhistory) : list (N * (fheader * list N)) :=
  match h with
  | [] => []
  | (ODatagram d now _ _, _) :: h' =>
      match parsed mtu d with
      | Some (f, body) => if is_fromb p s f then heard mtu p s h' ++ [(now, (f, body))] else heard mtu p s h'
      | None => heard mtu p s h'
      end
  | (OSub p' _ _ _, GSubbed SubOk _) :: h' => if port_eqb p' p then [] else heard mtu p s h'
  | _ :: h' => heard mtu p s h'
  end.

(** [fs] are consecutive datagrams of one transfer: one priority and transfer ID, consecutive indices, the last-frame flag
    on the last one and not on those between the first and the last. *)
Definition consecutive (fs : list (fheader * list N)) : Prop :=
  forall i f body f0 body0,
    nth_error fs 0 = Some (f0, body0) -> nth_error fs i = Some (f, body) ->
    fh_index f = fh_index f0 + N.of_nat i /\ fh_prio f = fh_prio f0 /\ fh_tid f = fh_tid f0 /\
    (S i = length fs -> fh_last f = true) /\ ((0 < i)%nat -> (S i < length fs)%nat -> fh_last f = false).

(** A transfer in one datagram. *)
Definition single (f : fheader) : bool := N.eqb (fh_index f) 0 && fh_last f.

(** [t] was assembled from the datagrams [fs] of node [s] on its port (with their times): they are consecutive, the CRC is
    right, the payload is cut to [max], and the header is that of the last datagram.  The time of a transfer of several
    datagrams is that of the first one. *)
Definition assembled (max : nat) (t : transfer) (fs : list (N * (fheader * list N))) : Prop :=
  exists data fl bl tl t0 d0,
    consecutive (map snd fs) /\ hd_error fs = Some (t0, d0) /\
    nth_error fs (length fs - 1) = Some (tl, (fl, bl)) /\
    concat (map (fun x => snd (snd x)) fs) = data ++ le_bytes 4 (crc32 data) /\
    t_payload t = firstn max data /\ t_header t = as_core_header fl (h_ts (t_header t)) /\ t_loopback t = false /\
    ((2 <= length fs)%nat -> h_ts (t_header t) = t0) /\ (length fs = 1%nat -> single fl = true).

(** The last datagram from [s] on [p] since the subscription was made, if any, completed a transfer. *)
Fixpoint idle (mtu : nat) (p : port) (s : N) (h : uhistory) : bool :=
  match h with
  | [] => true
  | (ODatagram d now _ _, o) :: h' =>
      match parsed mtu d with
      | Some (f, body) =>
          if is_fromb p s f then match o with GGot (UDeliver _) => true | _ => false end else idle mtu p s h'
      | None => idle mtu p s h'
      end
  | (OSub p' _ _ _, GSubbed SubOk _) :: h' => if port_eqb p' p then true else idle mtu p s h'
  | _ :: h' => idle mtu p s h'
  end.

(** A transfer with ID [tid] arriving at [now] is new compared to the datagram [e] heard before: higher transfer ID, or the
    timeout has passed; and the clock can tell that [e] was earlier. *)
Definition newer (timeout now tid : N) (e : N * (fheader * list N)) : Prop :=
  exists age, t_since now (fst e) = Some age /\ (fh_tid (fst (snd e)) < tid \/ timeout < age).

(** During [e], nothing happens that makes the receiver forget that [t] was delivered: no change of the subscription to its
    port, and from its source on its port only datagrams with the same or a lower transfer ID, before the timeout. *)
Definition repeats (mtu : nat) (p : port) (s : N) (timeout : N) (t : transfer) (e : udp_op * udp_out) : Prop :=
  match fst e with
  | ODatagram d now _ _ =>
      forall f body, parsed mtu d = Some (f, body) -> is_from p s f ->
        fh_tid f <= h_tid (t_header t) /\ exists age, t_since now (h_ts (t_header t)) = Some age /\ age <= timeout
  | OSub q _ _ _ | OUnsub q _ => q <> p
  | OSetId _ => True
  end.

(** The operations that remain when all datagrams that are not from [s] on [p] are taken away. *)
Definition keeps (mtu : nat) (p : port) (s : N) (op : udp_op) : bool :=
  match op with
  | ODatagram d _ _ _ => match parsed mtu d with Some (f, _) => is_fromb p s f | None => false end
  | _ => true
  end.
(** A datagram arriving when memory is available. *)
Definition arrive (x : list N * N) : udp_op := ODatagram (fst x) (snd x) true true.

(** The datagrams whose deadline has not passed when it is their turn. *)
Definition in_time (env : nat -> N * bool) (deadline : N) (ds : list (list N)) : list (list N) :=
  map snd (filter (fun x => t_lt (fst (env (fst x))) deadline) (combine (seq 0 (length ds)) ds)).

(** ** Groups *)

(** Port and node IDs in range, as the Rust types guarantee. *)
Definition port_ok (p : port) : Prop := match p with PMsg s => s <= 8191 | PReq s | PResp s => s <= 511 end.
Definition ids_ok (op : udp_op) : Prop :=
  match op with OSub p _ _ _ | OUnsub p _ => port_ok p | OSetId (Some n) => node_ok n | _ => True end.
Definition is_service (p : port) : Prop := match p with PMsg _ => False | _ => True end.

(** The socket is a member of the group [ip]: it joined and did not leave since. *)
Fixpoint member_calls (ip : N) (was : bool) (calls : list gcall) : bool :=
  match calls with
  | [] => was
  | Join ip' ok :: r => member_calls ip (if N.eqb ip' ip && ok then true else was) r
  | Leave ip' _ :: r => member_calls ip (if N.eqb ip' ip then false else was) r
  end.
Fixpoint member (ip : N) (h : uhistory) : bool :=
  match h with
  | [] => false
  | (_, GSubbed _ calls) :: h' => member_calls ip (member ip h') calls
  | (_, GUnsubbed calls) :: h' => member_calls ip (member ip h') calls
  | _ :: h' => member ip h'
  end.
