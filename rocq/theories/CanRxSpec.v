(** Specification for CAN reception: histories of a receiver, and what they say about subscriptions and transfers. *)
From Verif Require Import Base CoreModel CrcModel CanIdModel CanSpec CanTxModel CanTxSpec CanRxModel.

(** What can happen to a receiver.  [mem] is the result of the allocation, if there is one. *)
Inductive can_op :=
| CFrame (f : frame) (mem : bool)
| CSub (p : port) (timeout : N) (max : nat) (mem : bool)
| CUnsub (p : port)
| CSetId (id : option N).
(** What the caller sees. *)
Inductive can_out := CGot (o : rx_out) | CSubbed (o : subscribe_res) | CDone.

Definition can_step (r : can_rx) (op : can_op) : res (can_rx * can_out) :=
  match op with
  | CFrame f mem => match accept_frame r mem f with Panic => Panic | Ok (r', o) => Ok (r', CGot o) end
  | CSub p timeout max mem => let (r', o) := rx_subscribe_port r p timeout max mem in Ok (r', CSubbed o)
  | CUnsub p => Ok (rx_unsubscribe r p, CDone)
  | CSetId id => Ok (rx_set_id r id, CDone)
  end.
Fixpoint can_run (r : can_rx) (ops : list can_op) : res (can_rx * list can_out) :=
  match ops with
  | [] => Ok (r, [])
  | op :: rest =>
      match can_step r op with
      | Panic => Panic
      | Ok (r1, o) => match can_run r1 rest with Panic => Panic | Ok (r2, os) => Ok (r2, o :: os) end
      end
  end.

(** The frames the Rust types allow: 29-bit identifier, 32-bit time, bytes. *)
Definition frame_ok (f : frame) : Prop := f_id f < 2 ^ 29 /\ f_ts f < 2 ^ 32 /\ bytes_ok (f_data f).
Definition can_op_ok (op : can_op) : Prop := match op with CFrame f _ => frame_ok f | _ => True end.

(** Histories of a receiver created with the node ID [id], latest event first, and the state reached. *)
Inductive can_hist (id : option N) : list (can_op * can_out) -> can_rx -> Prop :=
| ch_new : can_hist id [] (rx_new id)
| ch_step : forall h r op r' o, can_hist id h r -> can_op_ok op -> can_step r op = Ok (r', o) -> can_hist id ((op, o) :: h) r'.

(** The node ID in force. *)
Fixpoint can_node (id : option N) (h : list (can_op * can_out)) : option N :=
  match h with
  | [] => id
  | (CSetId n, _) :: _ => n
  | _ :: h' => can_node id h'
  end.

(** The subscription in force for a port: transfer-ID timeout and maximum payload size. *)
Fixpoint can_active (p : port) (h : list (can_op * can_out)) : option (N * nat) :=
  match h with
  | [] => None
  | (CSub p' timeout max _, o) :: h' =>
      if port_eqb p' p then
        match o with
        | CSubbed SubscribeOk => Some (timeout, max)
        | CSubbed SubscribeMemory => None             (* the old subscription is gone, too *)
        | _ => can_active p h'                        (* refused: nothing changed *)
        end
      else can_active p h'
  | (CUnsub p', _) :: h' => if port_eqb p' p then None else can_active p h'
  | _ :: h' => can_active p h'
  end.

(** A frame whose identifier names the port [p] and the source node [s]. *)
Definition sent_by (p : port) (s : N) (f : frame) : bool :=
  let id := f_id f in
  match p with
  | PMsg x => (bits_at id 25 1 =? 0) && (bits_at id 24 1 =? 0) && (bits_at id 8 13 =? x) && (bits_at id 0 7 =? s)
  | PReq x => (bits_at id 25 1 =? 1) && (bits_at id 24 1 =? 1) && (bits_at id 14 9 =? x) && (bits_at id 0 7 =? s)
  | PResp x => (bits_at id 25 1 =? 1) && (bits_at id 24 1 =? 0) && (bits_at id 14 9 =? x) && (bits_at id 0 7 =? s)
  end.

(** The frames from [s] on port [p], in the order received, since the subscription was made and since the last transfer
    that was delivered from [s] on [p]. *)
Fixpoint pending (p : port) (s : N) (h : list (can_op * can_out)) : list frame :=
  match h with
  | [] => []
  | (CFrame f _, o) :: h' =>
      if sent_by p s f then
        match o with CGot (RxTransfer _) => [] | _ => pending p s h' ++ [f] end
      else pending p s h'
  | (CSub p' _ _ _, CSubbed SubscribeOk) :: h' => if port_eqb p' p then [] else pending p s h'
  | _ :: h' => pending p s h'
  end.
(** The last transfer delivered from [s] on [p] since the subscription was made. *)
Fixpoint last_delivery (p : port) (s : N) (h : list (can_op * can_out)) : option transfer :=
  match h with
  | [] => None
  | (CFrame f _, CGot (RxTransfer t)) :: h' => if sent_by p s f then Some t else last_delivery p s h'
  | (CSub p' _ _ _, CSubbed SubscribeOk) :: h' => if port_eqb p' p then None else last_delivery p s h'
  | _ :: h' => last_delivery p s h'
  end.

(** The tail byte of a frame. *)
Definition has_tail (f : frame) (start stop toggle : bool) (tid : N) : Prop :=
  tid <= 31 /\ exists body, f_data f = body ++ [tail_byte start stop toggle tid].
Definition with_tid (tid : N) (f : frame) : Prop := exists start stop toggle, has_tail f start stop toggle tid.
Definition frame_body (f : frame) : list N := removelast (f_data f).
Definition contents (fs : list frame) : list N := concat (map frame_body fs).

(** The frames of one transfer of several frames: start bit on the first, end bit on the last, alternating toggle bits
    starting with 1, one transfer ID, one loopback flag. *)
Definition multiframe (tid : N) (loop : bool) (fs : list frame) : Prop :=
  (2 <= length fs)%nat /\
  forall i f, nth_error fs i = Some f -> f_loop f = loop /\ has_tail f (i =? 0)%nat (S i =? length fs)%nat (Nat.even i) tid.

Inductive subseq {A} : list A -> list A -> Prop :=
| ss_nil : forall l, subseq [] l
| ss_skip : forall a l m, subseq l m -> subseq l (a :: m)
| ss_take : forall a l m, subseq l m -> subseq (a :: l) (a :: m).

(** [recent timeout now t]: at most [timeout] has passed since the time stamp of [t]. *)
Definition recent (timeout now : N) (t : transfer) : Prop :=
  exists age, t_since now (h_ts (t_header t)) = Some age /\ age <= timeout.

(** Parts of a history that concern a port and a source. *)
Definition concerns (p : port) (s : N) (op : can_op) : bool :=
  match op with
  | CFrame f _ => sent_by p s f
  | CSub p' _ _ _ | CUnsub p' => port_eqb p' p
  | CSetId _ => true
  end.
