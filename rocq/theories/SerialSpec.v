(** Specification for the serial transport: histories of calls as the user of the receiver sees them. *)
From Verif Require Import Base CoreModel CobsModel HeaderModel SerialModel.

(** A history, latest operation first: each operation with what it reported. *)
Definition history := list (rxop * rxout).

(** The histories of a receiver created with node ID [node]. *)
Inductive rx_hist (node : option N) : history -> rx -> Prop :=
| RH_new : rx_hist node [] (rx_new node)
| RH_step h r op r' o : rx_hist node h r -> rx_step r op = Ok (r', o) -> rx_hist node ((op, o) :: h) r'.

(** The subscription to a port that is active after a history (maximum payload size and timeout). *)
Fixpoint active (p : port) (h : history) : option (nat * N) :=
  match h with
  | [] => None
  | (XSub p' max timeout _, o) :: r =>
      if port_eqb p' p then
        match o with
        | OAnonymous => active p r           (* refused: nothing changed *)
        | OMemory => None                    (* out of memory: the older subscription is gone *)
        | _ => Some (max, timeout)
        end
      else active p r
  | (XUnsub p', _) :: r => if port_eqb p' p then None else active p r
  | _ :: r => active p r
  end.

(** The node ID in force after a history. *)
Fixpoint node_id (node : option N) (h : history) : option N :=
  match h with
  | [] => node
  | (XSetId id, _) :: _ => id
  | _ :: r => node_id node r
  end.

(** Bytes as a link carries them: each with the receiver's clock and whether a session can be allocated. *)
Definition carry (e : N * (N * bool)) : rxop := XByte (fst e) (fst (snd e)) true (snd (snd e)).
Definition wire_bytes (evs : list (N * (N * bool))) : list N := map fst evs.
Definition wire_times (evs : list (N * (N * bool))) : list N := map (fun e => fst (snd e)) evs.

(** [sub] has no session for the source of [h], or one with a smaller transfer ID. *)
Definition fresh (sub : subscription) (h : header) : Prop :=
  forall s se, h_source h = Some s -> TabModel.lookup s (ss_sessions sub) = Some se -> se_tid se < h_tid h.

(** A service transfer is addressed to the receiver's node. *)
Definition addressed (r : rx) (h : header) : Prop := forall d, h_dest h = Some d -> rx_node r = Some d.

(** The operation touches the subscription of port [p]. *)
Definition resubscribes (p : port) (e : rxop * rxout) : Prop :=
  (exists max timeout alloc, fst e = XSub p max timeout alloc) \/ fst e = XUnsub p.

(** The driver accepts all the bytes of the list, one call after the other. *)
Inductive sends {D} (send : D -> N -> D * dres) : D -> list N -> D -> Prop :=
| sends_nil d : sends send d [] d
| sends_cons d b d1 l d2 : send d b = (d1, DOk) -> sends send d1 l d2 -> sends send d (b :: l) d2.
