(** Specification of the drivers for CAN controllers. *)
From Verif Require Import Base CoreModel CanTxModel CanQueueModel CanQueueSpec BxModel.

(** Frames that fit a Classic CAN controller *)
Definition fits (f : frame) : Prop := f_id f < 2 ^ 29 /\ (length (f_data f) <= 8)%nat /\ f_ts f < 2 ^ 32.
(** What of a frame goes over the bus *)
Definition on_wire (f : frame) : bx_frame := BxFrame true (f_id f) (Some (f_data f)).
(** A frame without its loopback flag *)
Definition plain (f : frame) : frame := Frame (f_ts f) (f_id f) false (f_data f).
(** [now] is after [deadline], by less than half the range of the clock *)
Definition late (deadline now : N) : Prop := exists k, 0 < k < 2 ^ 31 /\ now = (deadline + k) mod 2 ^ 32.

(** What became of the frames in the mailboxes *)
Definition sent (d : device) : list bx_frame := flat_map (fun l => match l with Sent b => [b] | Aborted _ _ => [] end) (d_history d).
Definition aborted (d : device) : list (N * bx_frame) := flat_map (fun l => match l with Aborted t b => [(t, b)] | Sent _ => [] end) (d_history d).
Definition pending (d : device) : list bx_frame := flat_map (fun mb => match mb with Some b => [b] | None => [] end) (d_mailboxes d).

(** Operations with times of the clock and frames that fit *)
Definition op_ok (o : bx_op) : Prop :=
  match o with
  | OpTransmit now f => now < 2 ^ 32 /\ fits f
  | OpFilters local ps _ => (forall n, local = Some n -> n <= 127) /\ Forall (fun p => match p with PMsg s => s <= 8191 | PReq s | PResp s => s <= 511 end) ps
  | _ => True
  end.
(** The frame that a call has taken: the result is [Ok], and the deadline has not passed *)
Definition accepted (p : bx_op * bx_out) : list frame :=
  match p with (OpTransmit now f, OutTx (TxOk _)) => if t_lt (f_ts f) now then [] else [f] | _ => [] end.
(** The frame that a call has given back *)
Definition displaced (p : bx_op * bx_out) : list frame := match p with (OpTransmit _ _, OutTx (TxOk (Some g))) => [g] | _ => [] end.
(** What was received *)
Definition received (p : bx_op * bx_out) : list frame := match p with (_, OutRx (RxFrame f)) => [f] | _ => [] end.

(** Frames that a driver passes on: those with extended identifiers and with data *)
Definition deliverable (b : bx_frame) : bool := b_extended b && (b_id b <? 2 ^ 29) && match b_data b with Some _ => true | None => false end.
(** What waits in the hardware *)
Definition waiting (d : device) : list bx_frame := flat_map (fun a => match a with Arrived b => [b] | Overrun => [] end) (d_fifo d).
Definition overruns (d : device) : nat := length (filter (fun a => match a with Overrun => true | Arrived _ => false end) (d_fifo d)).
(** The frames that pass the filters in a history *)
Fixpoint passed (ops : list bx_op) (x : bx_driver) : list bx_frame :=
  match ops with
  | [] => []
  | o :: r => match o with OpArrive b => if existsb (bank_accepts b) (d_banks (bx_can x)) then [b] else [] | _ => [] end ++
              match bx_step o x with Ok (x', _) => passed r x' | Panic => [] end
  end.
(** The copy of a frame that a call has taken, if it asks for one *)
Definition copies (p : bx_op * bx_out) : list frame :=
  match p with (OpTransmit now _, _) => flat_map (fun f => if f_loop f then [Frame now (f_id f) true (f_data f)] else []) (accepted p) | _ => [] end.
(** Frames received from the bus, and copies *)
Definition from_bus (l : list frame) : list frame := filter (fun f => negb (f_loop f)) l.
Definition looped (l : list frame) : list frame := filter f_loop l.
Definition overran (p : bx_op * bx_out) : bool := match p with (_, OutRx RxOverrun) => true | _ => false end.
Definition overruns_in (ops : list bx_op) : nat := length (filter (fun o => match o with OpOverrun => true | _ => false end) ops).

(** [a] is [b] without some of its elements *)
Inductive subsequence {A} : list A -> list A -> Prop :=
| sub_nil l : subsequence [] l
| sub_keep x a b : subsequence a b -> subsequence (x :: a) (x :: b)
| sub_skip x a b : subsequence a b -> subsequence a (x :: b).

(** A queue with a driver: [system cap banks script pushed q w] when the queue of capacity [cap] has been given the frames [pushed], in this order,
    with any calls to [flush] in between, the hardware has sent frames at any time, and the driver has been used to receive, with any filters. *)
Definition receives (o : bx_op) : Prop := match o with OpReceive _ | OpFilters _ _ _ | OpAcceptAll | OpArrive _ | OpOverrun => True | OpTransmit _ _ | OpSend _ => False end.
Inductive system (cap banks : nat) (script : nat -> N * list nat) : list frame -> array_queue -> res bx_driver * nat -> Prop :=
| system_new : system cap banks script [] (aq_new cap) (Ok (bx_new banks), O)
| system_push pushed q w f q' : system cap banks script pushed q w -> fits f -> aq_push q f = Ok (q', true) -> system cap banks script (pushed ++ [f]) q' w
| system_full pushed q w f q' : system cap banks script pushed q w -> aq_push q f = Ok (q', false) -> system cap banks script pushed q' w
| system_flush pushed q w fuel q' w' r : system cap banks script pushed q w -> bx_flush script fuel q w = Ok (Some (q', w', r)) -> system cap banks script pushed q' w'
| system_send pushed q x k m : system cap banks script pushed q (Ok x, k) -> system cap banks script pushed q (Ok (on_device (dev_send m) x), k)
| system_receive pushed q x k o x' out : system cap banks script pushed q (Ok x, k) -> receives o -> bx_step o x = Ok (x', out) -> system cap banks script pushed q (Ok x', k).
