(** Specification of plug-and-play node ID allocation. *)
From Verif Require Import Base CoreModel NodeModel NodeSpec EncModel GenModel DataTypes BasicModel BasicSpec PnpModel.

(** * Allocation messages as bytes (uavcan.pnp.NodeIDAllocationData) *)

(** The unsigned little-endian number in bytes [p .. p + n]; missing bytes are zero. *)
Definition number_at (b : list N) (p n : nat) : N := from_le (map (fun i => nth i b 0) (seq p n)).
Definition bytes_at (b : list N) (p n : nat) : list N := map (fun i => nth i b 0) (seq p n).

(** Which node a message is about: version 1 has the 48-bit hash of its unique ID, version 2 the unique ID. *)
Inductive who := Hash (h : N) | Unique (unique_id : list N).
Definition is_who (u : list N) (w : who) : Prop := match w with Hash h => h = crc64we u mod 2 ^ 48 | Unique x => x = u end.
(** What the receiver of a payload learns: about which node, and a node ID.
    Version 1: uint48 unique_id_hash, ID[<=1] allocated_node_id.  Version 2: ID node_id, uint8[16] unique_id. *)
Definition reading (v : version) (b : list N) : option (who * option N) :=
  match v with
  | V1 => match nth 6 b 0 with
          | 0 => Some (Hash (number_at b 0 6), None)
          | 1 => Some (Hash (number_at b 0 6), Some (number_at b 7 2))
          | _ => None
          end
  | V2 => Some (Unique (bytes_at b 2 16), Some (number_at b 0 2))
  end.
(** A request of the node with this unique ID. *)
Definition requests_for (u : list N) (v : version) (b : list N) : Prop := exists w o, reading v b = Some (w, o) /\ is_who u w.

Definition unique_id_ok (u : list N) : Prop := length u = 16%nat /\ bytes_ok u.
Definition who_ok (w : who) : Prop := match w with Hash h => h < 2 ^ 48 | Unique u => unique_id_ok u end.
Definition who_version (w : who) : version := match w with Hash _ => V1 | Unique _ => V2 end.

(** * The server *)

(** What happens to a server: the application assigns a node ID, or a message arrives. *)
Inductive server_op := SAssign (id : N) (unique_id : list N) | SMessage (header : msg_header) (payload : list N) (e : env).
Definition server_step (l : list assignment) (n : core) (o : server_op) : res (list assignment * core * list entry) :=
  match o with
  | SAssign id u => bind (server_assign l id u) (fun l' => Ok (l', n, []))
  | SMessage header payload e => bind (server_message l n header payload e) (fun x => let '(_, l', n', es) := x in Ok (l', n', es))
  end.
(** The history since the server was created, latest first, with what the node did. *)
Inductive server_hist (t : transport) (n0 : core) : list (server_op * list entry) -> list assignment -> core -> Prop :=
| sv_new : c_transport n0 = t -> server_hist t n0 [] (table_new t) n0
| sv_step h l n o l' n' es : server_hist t n0 h l n -> server_step l n o = Ok (l', n', es) -> server_hist t n0 ((o, es) :: h) l' n'.

Definition server_op_ok (o : server_op) : Prop :=
  match o with SAssign _ u => unique_id_ok u | SMessage _ payload _ => bytes_ok payload end.

(** The message is an allocation message of this version about this node. *)
Definition asks (v : version) (w : who) (o : server_op) : Prop :=
  match o with SMessage header payload _ => mh_subject header = allocation_subject v /\ exists x, reading v payload = Some (w, x) | _ => False end.
(** One message was published, which tells this node that it has this node ID. *)
Definition answers (v : version) (w : who) (id : N) (es : list entry) : Prop :=
  exists payload e calls r, es = [(Publish false (allocation_subject v) payload e, calls, r)] /\ bytes_ok payload /\ reading v payload = Some (w, Some id).

(** The node ID is taken by the node of the message, as far as the server knows. *)
Definition taken_by (w : who) (a : assignment) : Prop := match a with Unassigned => False | Reserved => True | Assigned u => is_who u w end.
(** What the server does: the lowest node ID that is reserved or assigned to the node; otherwise it counts the node IDs above the highest
    free one, and uses the number as a node ID, whatever the table says about it. *)
Inductive picks (w : who) (l : list assignment) : option N -> list assignment -> Prop :=
| picks_old i a : nth_error l i = Some a -> taken_by w a -> (forall j b, (j < i)%nat -> nth_error l j = Some b -> ~ taken_by w b) ->
    picks w l (Some (N.of_nat i)) l
| picks_new k l' : (forall a, In a l -> ~ taken_by w a) ->
    nth_error l k = Some Unassigned -> (forall j b, (k < j)%nat -> nth_error l j = Some b -> b <> Unassigned) ->
    length l' = length l -> nth_error l' (length l - 1 - k) = Some Reserved ->
    (forall j, j <> (length l - 1 - k)%nat -> nth_error l' j = nth_error l j) ->
    picks w l (Some (N.of_nat (length l - 1 - k))) l'
| picks_none : (forall a, In a l -> ~ taken_by w a) -> (forall a, In a l -> a <> Unassigned) -> picks w l None l.

(** The unique ID that the application assigned the node ID to: the first one. *)
Fixpoint owner (h : list (server_op * list entry)) (id : N) : option (list N) :=
  match h with
  | [] => None
  | (SAssign i u, _) :: h' => match owner h' id with Some x => Some x | None => if i =? id then Some u else None end
  | _ :: h' => owner h' id
  end.
(** Nothing unknown to the server happens: every node that asks has got a node ID from the application before, heartbeats come from such node
    IDs, and the application assigns only one node ID to a node. *)
Definition known (h : list (server_op * list entry)) (o : server_op) : Prop :=
  match o with
  | SAssign _ u => forall id x, owner h id = Some x -> crc64we x mod 2 ^ 48 <> crc64we u mod 2 ^ 48
  | SMessage header b _ =>
      (forall v w y, mh_subject header = allocation_subject v -> reading v b = Some (w, y) -> exists id u, owner h id = Some u /\ is_who u w) /\
      (forall id, mh_subject header = heartbeat_subject -> mh_source header = Some id -> owner h id <> None)
  end.
Fixpoint all_known (h : list (server_op * list entry)) : Prop := match h with [] => True | (o, _) :: h' => known h' o /\ all_known h' end.

(** * The clients *)

(** The greatest node ID of a transport. *)
Definition greatest_node_id (t : transport) : N := match t with TransportCan => 127 | Transport64 => 65534 end.
(** The message offers the node with this unique ID a node ID of the transport. *)
Definition offers (t : transport) (v : version) (u : list N) (b : list N) (id : N) : Prop :=
  exists w, reading v b = Some (w, Some id) /\ is_who u w /\ id <= greatest_node_id t.
(** The node has no other ID, publisher or subscription than before, except that it has the node ID and does not use the subject. *)
Definition adopted (v : version) (id : N) (n n' : core) : Prop :=
  c_id n' = Some id /\
  (forall s, im_get s (c_publishers n') = if s =? allocation_subject v then None else im_get s (c_publishers n)) /\
  c_requesters n' = c_requesters n /\ c_transport n' = c_transport n /\ c_kind n' = c_kind n /\ c_P n' = c_P n /\ c_R n' = c_R n.
(** What a request of the node with this unique ID says: who it is, and in version 2 the node ID 0, which counts for nothing. *)
Definition self (v : version) (u : list N) : who := match v with V1 => Hash (crc64we u mod 2 ^ 48) | V2 => Unique u end.
Definition asked (v : version) : option N := match v with V1 => None | V2 => Some 0 end.
