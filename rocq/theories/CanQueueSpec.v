(** Specification of the outgoing frame queue: a list of frames in the order in which they will be sent. *)
From Coq Require Export Sorted Permutation.
From Verif Require Import Base CoreModel CanTxModel CanQueueModel.

(** A new frame goes behind all frames of equal or lesser identifier. *)
Fixpoint insert_behind (f : frame) (l : list frame) : list frame :=
  match l with
  | [] => [f]
  | x :: r => if f_id x <=? f_id f then x :: insert_behind f r else f :: l
  end.
(** A frame given back goes in front of all frames of equal or greater identifier. *)
Fixpoint insert_before (f : frame) (l : list frame) : list frame :=
  match l with
  | [] => [f]
  | x :: r => if f_id x <? f_id f then x :: insert_before f r else f :: l
  end.

Inductive queue_op := OpReserve (n : nat) | OpPush (f : frame) | OpPeek | OpPop | OpReturn (f : frame).
Inductive queue_out := OutBool (ok : bool) | OutFrame (f : option frame).

(** What one operation does to a queue of capacity [cap]. *)
Definition spec_step (cap : nat) (l : list frame) (op : queue_op) : list frame * queue_out :=
  match op with
  | OpReserve n => (l, OutBool (length l + n <=? cap)%nat)
  | OpPush f => if (length l <? cap)%nat then (insert_behind f l, OutBool true) else (l, OutBool false)
  | OpPeek => (l, OutFrame (hd_error l))
  | OpPop => (tl l, OutFrame (hd_error l))
  | OpReturn f => if (length l <? cap)%nat then (insert_before f l, OutBool true) else (l, OutBool false)
  end.
Fixpoint spec_run (cap : nat) (l : list frame) (ops : list queue_op) : list frame * list queue_out :=
  match ops with
  | [] => (l, [])
  | op :: r => let (l1, o) := spec_step cap l op in let (l2, os) := spec_run cap l1 r in (l2, o :: os)
  end.

(** The same operations on the real queue. *)
Definition aq_step (q : array_queue) (op : queue_op) : res (array_queue * queue_out) :=
  match op with
  | OpReserve n => match aq_reserve q n with Ok b => Ok (q, OutBool b) | Panic => Panic end
  | OpPush f => match aq_push q f with Ok (q', b) => Ok (q', OutBool b) | Panic => Panic end
  | OpPeek => match aq_peek q with Ok o => Ok (q, OutFrame o) | Panic => Panic end
  | OpPop => match aq_pop q with Ok (q', o) => Ok (q', OutFrame o) | Panic => Panic end
  | OpReturn f => match aq_return q f with Ok (q', b) => Ok (q', OutBool b) | Panic => Panic end
  end.
Fixpoint aq_run (q : array_queue) (ops : list queue_op) : res (array_queue * list queue_out) :=
  match ops with
  | [] => Ok (q, [])
  | op :: r =>
      match aq_step q op with
      | Panic => Panic
      | Ok (q1, o) => match aq_run q1 r with Panic => Panic | Ok (q2, os) => Ok (q2, o :: os) end
      end
  end.

(** The frames in a queue, by emptying it. *)
Fixpoint drain (fuel : nat) (q : array_queue) : list frame :=
  match fuel with
  | O => []
  | S k => match aq_pop q with Ok (q', Some f) => f :: drain k q' | _ => [] end
  end.

(** Identifiers never decrease from front to back. *)
Definition by_priority (l : list frame) : Prop := StronglySorted (fun a b => f_id a <= f_id b) l.
(** The frames with identifier [id], in order. *)
Definition with_id (id : N) (l : list frame) : list frame := filter (fun f => f_id f =? id) l.

(** ** Flushing: what a driver and a clock observe *)
Inductive call := CNow (t : N) | CTx (f : frame) (r : tx_res).
Definition rec_now {W} (now : W -> W * N) (s : W * list call) : W * list call * N :=
  let (w, log) := s in let (w', t) := now w in ((w', log ++ [CNow t]), t).
Definition rec_tx {W} (transmit : W -> frame -> W * tx_res) (s : W * list call) (f : frame) : W * list call * tx_res :=
  let (w, log) := s in let (w', r) := transmit w f in ((w', log ++ [CTx f r]), r).
(** Frames the driver took, gave back, and failed on. *)
Definition taken (c : call) : list frame := match c with CTx f (TxOk _) => [f] | _ => [] end.
Definition given_back (c : call) : list frame := match c with CTx _ (TxOk (Some g)) => [g] | _ => [] end.
Definition failed (c : call) : list frame := match c with CTx f TxError => [f] | _ => [] end.
Definition clock_read (c : call) : list N := match c with CNow t => [t] | _ => [] end.

(** ** Deduplication: a history of frames, latest first, with the decision taken for each *)
Record rx_event := RxEvent { e_ts : N; e_index : nat; e_accepted : bool }.
Fixpoint last_accepted (h : list rx_event) : option (N * nat) :=
  match h with
  | [] => None
  | e :: r => if e_accepted e then Some (e_ts e, e_index e) else last_accepted r
  end.
