(** Model of the outgoing frame queues and redundancy: canadensis_can/src/queue/*.rs and redundant/*.rs.
    Queue indices are [usize]; [wrapping_add] never wraps there because an array of frames is far smaller than the address
    space, so indices are [nat] here. *)
From Verif Require Import Base CoreModel CanIdModel CanTxModel.

(** data.rs:108-117 [Frame::default] *)
Definition frame_default : frame := Frame 0 0 false [].

Fixpoint upd {A} (l : list A) (i : nat) (x : A) : list A :=
  match l, i with
  | [], _ => []
  | _ :: r, O => x :: r
  | y :: r, S k => y :: upd r k x
  end.

(** [slice[i] = x] *)
Definition store {A} (l : list A) (i : nat) (x : A) : res (list A) :=
  if (i <? length l)%nat then Ok (upd l i x) else Panic.
(** [slice[i]] *)
Definition fetch {A} (l : list A) (i : nat) : res A := match nth_error l i with Some x => Ok x | None => Panic end.
(** [slice::swap] *)
Definition swap {A} (l : list A) (i j : nat) : res (list A) :=
  match nth_error l i, nth_error l j with
  | Some x, Some y => Ok (upd (upd l i y) j x)
  | _, _ => Panic
  end.

(** ** queue/array_queue.rs *)
(** 13-23 [ArrayQueue]; N is the length of [aq_items] *)
Record array_queue := AQ { aq_items : list frame; aq_head : nat; aq_length : nat }.
(** 27-51 [new] *)
Definition aq_new (n : nat) : array_queue := AQ (repeat frame_default n) O O.
(** 67-71 [increment_head] *)
Definition aq_inc (n head : nat) : nat := if (n =? 0)%nat then head else ((head + 1) mod n)%nat.
(** 73-77 [decrement_head] *)
Definition aq_dec (n head : nat) : nat := if (n =? 0)%nat then head else ((head + (n - 1)) mod n)%nat.
(** 81-89 [try_reserve]; [N - self.length] underflows, and panics, if length > N *)
Definition aq_reserve (q : array_queue) (additional : nat) : res bool :=
  if (length (aq_items q) <? aq_length q)%nat then Panic
  else Ok (additional <=? length (aq_items q) - aq_length q)%nat.
(** 108-120, the loop of [push_frame]; [fuel] bounds the number of rounds, and running out of it counts as a panic *)
Fixpoint aq_to_front (fuel : nat) (items : list frame) (head i : nat) (id : N) : res (list frame) :=
  if (i =? head)%nat then Ok items
  else match fuel with
  | O => Panic
  | S fuel' =>
      let ahead := ((i + (length items - 1)) mod length items)%nat in
      match fetch items ahead with
      | Panic => Panic
      | Ok f =>
          if f_id f <=? id then Ok items
          else match swap items i ahead with
               | Panic => Panic
               | Ok items' => aq_to_front fuel' items' head ahead id
               end
      end
  end.
(** 95-124 [push_frame]; the boolean is true for Ok and false for OutOfMemoryError *)
Definition aq_push (q : array_queue) (f : frame) : res (array_queue * bool) :=
  let n := length (aq_items q) in
  if (aq_length q =? n)%nat then Ok (q, false)
  else
    let tail := ((aq_head q + aq_length q) mod n)%nat in
    match store (aq_items q) tail f with
    | Panic => Panic
    | Ok items =>
        match aq_to_front n items (aq_head q) tail (f_id f) with
        | Panic => Panic
        | Ok items' => Ok (AQ items' (aq_head q) (aq_length q + 1), true)
        end
    end.
(** 126-132 [peek_frame] *)
Definition aq_peek (q : array_queue) : res (option frame) :=
  if (aq_length q =? 0)%nat then Ok None
  else match fetch (aq_items q) (aq_head q) with Ok f => Ok (Some f) | Panic => Panic end.
(** 134-143 [pop_frame] *)
Definition aq_pop (q : array_queue) : res (array_queue * option frame) :=
  if (aq_length q =? 0)%nat then Ok (q, None)
  else match fetch (aq_items q) (aq_head q) with
       | Panic => Panic
       | Ok f => Ok (AQ (upd (aq_items q) (aq_head q) frame_default) (aq_inc (length (aq_items q)) (aq_head q)) (aq_length q - 1), Some f)
       end.
(** 159-171, the loop of [return_frame] *)
Fixpoint aq_to_back (fuel : nat) (items : list frame) (tail i : nat) (id : N) : res (list frame) :=
  if (i =? tail)%nat then Ok items
  else match fuel with
  | O => Panic
  | S fuel' =>
      let behind := ((i + 1) mod length items)%nat in
      match fetch items behind with
      | Panic => Panic
      | Ok f =>
          if id <=? f_id f then Ok items
          else match swap items i behind with
               | Panic => Panic
               | Ok items' => aq_to_back fuel' items' tail behind id
               end
      end
  end.
(** 145-175 [return_frame] *)
Definition aq_return (q : array_queue) (f : frame) : res (array_queue * bool) :=
  let n := length (aq_items q) in
  if (aq_length q =? n)%nat then Ok (q, false)
  else
    let head := aq_dec n (aq_head q) in
    match store (aq_items q) head f with
    | Panic => Panic
    | Ok items =>
        let tail := ((head + (aq_length q + 1 - 1)) mod n)%nat in
        match aq_to_back n items tail head (f_id f) with
        | Panic => Panic
        | Ok items' => Ok (AQ items' head (aq_length q + 1), true)
        end
    end.

(** ** queue/single_frame_queue.rs:23-61 [SingleFrameQueue] *)
Definition sq_reserve (q : option frame) (additional : nat) : bool :=
  match q with None => (additional =? 1)%nat | Some _ => false end.
Definition sq_push (q : option frame) (f : frame) : option frame * bool :=
  match q with None => (Some f, true) | Some _ => (q, false) end.
Definition sq_pop (q : option frame) : option frame * option frame := (None, q).
Definition sq_return (q : option frame) (f : frame) : option frame * bool :=
  match q with None => (Some f, true) | Some _ => (q, false) end.

(** ** queue/mod.rs *)
(** 20-49 [FrameQueue]: the operations of a queue; each may panic *)
Record queue_ops (Q : Type) := QueueOps {
  q_reserve : Q -> nat -> res bool;
  q_push : Q -> frame -> res (Q * bool);
  q_pop : Q -> res (Q * option frame);
  q_return : Q -> frame -> res (Q * bool) }.
Arguments QueueOps {Q}. Arguments q_reserve {Q}. Arguments q_push {Q}. Arguments q_pop {Q}. Arguments q_return {Q}.
Definition aq_ops : queue_ops array_queue := QueueOps aq_reserve aq_push aq_pop aq_return.
Definition sq_ops : queue_ops (option frame) :=
  QueueOps (fun q n => Ok (sq_reserve q n)) (fun q f => Ok (sq_push q f)) (fun q => Ok (sq_pop q)) (fun q f => Ok (sq_return q f)).

(** 98-103 [SingleQueueDriver::transmit]; also queue_only_driver.rs:93-98 *)
Definition qd_transmit {Q} (ops : queue_ops Q) (q : Q) (f : frame) : res (Q * tx_res) :=
  match q_push ops q f with
  | Panic => Panic
  | Ok (q', true) => Ok (q', TxOk None)
  | Ok (q', false) => Ok (q', TxWouldBlock)
  end.

(** The [TransmitDriver] interface of a queue (91-103; queue_only_driver.rs:89-98): a state in which the queue has panicked
    stays panicked. *)
Definition lift_reserve {Q} (ops : queue_ops Q) (d : res Q) (n : nat) : res Q * bool :=
  match d with
  | Panic => (Panic, false)
  | Ok q => match q_reserve ops q n with Ok b => (Ok q, b) | Panic => (Panic, false) end
  end.
Definition lift_transmit {Q} (ops : queue_ops Q) (d : res Q) (f : frame) : res Q * tx_res :=
  match d with
  | Panic => (Panic, TxError)
  | Ok q => match qd_transmit ops q f with Ok (q', r) => (Ok q', r) | Panic => (Panic, TxError) end
  end.

(** 185-187 [frame_is_expired] *)
Definition frame_expired (f : frame) (now : N) : bool := t_lt (f_ts f) now.

Inductive flush_res := FlushOk | FlushWouldBlock | FlushError.

(** 138-182 [flush_single_queue].  [W] is the state of driver and clock; [fuel] bounds the number of rounds, [None] is a
    flush that has not ended by then (a driver that gives back a frame for every one it takes may go on for ever). *)
Fixpoint flush_queue {Q W} (ops : queue_ops Q) (now : W -> W * N) (transmit : W -> frame -> W * tx_res)
    (fuel : nat) (q : Q) (w : W) : res (option (Q * W * flush_res)) :=
  match fuel with
  | O => Ok None
  | S fuel' =>
      match q_pop ops q with
      | Panic => Panic
      | Ok (q1, None) => Ok (Some (q1, w, FlushOk))
      | Ok (q1, Some f) =>
          let (w1, t) := now w in
          if frame_expired f t then flush_queue ops now transmit fuel' q1 w1
          else match transmit w1 f with
          | (w2, TxOk None) => flush_queue ops now transmit fuel' q1 w2
          | (w2, TxOk (Some removed)) =>
              if frame_expired removed t then flush_queue ops now transmit fuel' q1 w2
              else match q_return ops q1 removed with
                   | Ok (q2, true) => flush_queue ops now transmit fuel' q2 w2
                   | _ => Panic
                   end
          | (w2, TxWouldBlock) =>
              match q_return ops q1 f with
              | Ok (q2, true) => Ok (Some (q2, w2, FlushWouldBlock))
              | _ => Panic
              end
          | (w2, TxError) => Ok (Some (q1, w2, FlushError))
          end
      end
  end.

(** ** redundant/redundant_queue.rs *)
(** 13-22 [RedundantDriver] *)
Record redundant (D0 D1 : Type) := Redundant { rd_0 : D0; rd_1 : D1; rd_ok0 : bool; rd_ok1 : bool }.
Arguments Redundant {D0 D1}. Arguments rd_0 {D0 D1}. Arguments rd_1 {D0 D1}. Arguments rd_ok0 {D0 D1}. Arguments rd_ok1 {D0 D1}.
Section Redundant.
Context {D0 D1 : Type}.
Variables (reserve0 : D0 -> nat -> D0 * bool) (reserve1 : D1 -> nat -> D1 * bool).
Variables (transmit0 : D0 -> frame -> D0 * tx_res) (transmit1 : D1 -> frame -> D1 * tx_res).
(** 45-51 [try_reserve] *)
Definition rd_reserve (d : redundant D0 D1) (n : nat) : redundant D0 D1 * bool :=
  let (d0, ok0) := reserve0 (rd_0 d) n in
  let (d1, ok1) := reserve1 (rd_1 d) n in
  (Redundant d0 d1 ok0 ok1, ok0 || ok1).
(** 59-85 [transmit]; which driver an error came from is not modelled *)
Definition rd_transmit (d : redundant D0 D1) (f : frame) : redundant D0 D1 * tx_res :=
  let (d0, s0) := if rd_ok0 d then transmit0 (rd_0 d) f else (rd_0 d, TxWouldBlock) in
  let (d1, s1) := if rd_ok1 d then transmit1 (rd_1 d) f else (rd_1 d, TxWouldBlock) in
  (Redundant d0 d1 (rd_ok0 d) (rd_ok1 d),
   match s0, s1 with
   | TxOk r, _ => TxOk r
   | _, TxOk r => TxOk r
   | TxWouldBlock, TxWouldBlock => TxWouldBlock
   | _, _ => TxError
   end).
(** 87-101 [flush], given the flush of each driver *)
Definition rd_flush (flush0 : D0 -> D0 * flush_res) (flush1 : D1 -> D1 * flush_res) (d : redundant D0 D1) : redundant D0 D1 * flush_res :=
  let (d0, s0) := flush0 (rd_0 d) in
  let (d1, s1) := flush1 (rd_1 d) in
  (Redundant d0 d1 (rd_ok0 d) (rd_ok1 d),
   match s0, s1 with
   | FlushOk, _ => FlushOk
   | _, FlushOk => FlushOk
   | FlushWouldBlock, FlushWouldBlock => FlushWouldBlock
   | _, _ => FlushError
   end).
End Redundant.

(** ** redundant/deduplicator.rs *)
(** 25-33 [Deduplicator]; N is the length of [dd_last] *)
Record dedup := Dedup { dd_last : list (option N); dd_active : nat; dd_timeout : N }.
(** 41-49 [new] *)
Definition dd_new (n : nat) (timeout : N) : res dedup :=
  if (n =? 0)%nat then Panic else Ok (Dedup (repeat None n) O timeout).
(** 72-84 [active_transport_timed_out] *)
Definition dd_timed_out (d : dedup) (now : N) : res bool :=
  match nth_error (dd_last d) (dd_active d) with
  | None => Panic
  | Some None => Ok true
  | Some (Some last) => Ok (t_lt (t_add last (dd_timeout d)) now)
  end.
(** 57-68 [accept]; [ts] is the timestamp of the frame *)
Definition dd_accept (d : dedup) (ts : N) (index : nat) : res (dedup * bool) :=
  match store (dd_last d) index (Some ts) with
  | Panic => Panic
  | Ok last =>
      let d1 := Dedup last (dd_active d) (dd_timeout d) in
      match dd_timed_out d1 ts with
      | Panic => Panic
      | Ok out =>
          let d2 := Dedup last (if out then index else dd_active d) (dd_timeout d) in
          Ok (d2, (index =? dd_active d2)%nat)
      end
  end.
