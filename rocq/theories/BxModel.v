(** Model of the drivers for CAN controllers: canadensis_bxcan/src/lib.rs and canadensis_linux/src/lib.rs.

    - The bxCAN device and its crate [bxcan] (third party, version 0.7) are modelled as documented there: three transmit mailboxes; a frame is taken
      if it has a higher priority than all frames in the mailboxes; if no mailbox is free, it replaces the frame with the lowest priority.
    - What the hardware does on its own is an input: it may send the frame in a mailbox, and frames arrive, between calls.
    - [device] keeps a history of the frames that left the mailboxes.  The code cannot see it; theorems refer to it.
    - Only extended data frames are put in mailboxes, so their priority is their identifier. *)
From Verif Require Import Base CoreModel FilterModel CanIdModel CanTxModel CanQueueModel.

(** [bxcan::Frame]: extended or standard identifier; [None] is a remote frame *)
Record bx_frame := BxFrame { b_extended : bool; b_id : N; b_data : option (list N) }.
(** [bxcan::filter]: [Mask32::frames_with_ext_id], [Mask32::accept_all] *)
Inductive bank := BankMask (id mask : N) | BankAll.
(** What is read from the receive FIFO: a frame, or that some were lost *)
Inductive arrival := Arrived (b : bx_frame) | Overrun.
(** How a frame left a mailbox *)
Inductive leaving := Sent (b : bx_frame) | Aborted (now : N) (b : bx_frame).
Record device := Device { d_mailboxes : list (option bx_frame); d_history : list leaving; d_fifo : list arrival; d_banks : list (option bank) }.

(** * The device *)

(** The hardware sends the frame in mailbox [m] *)
Definition dev_send (m : nat) (d : device) : device :=
  match nth_error (d_mailboxes d) m with
  | Some (Some b) => Device (upd (d_mailboxes d) m None) (d_history d ++ [Sent b]) (d_fifo d) (d_banks d)
  | _ => d
  end.
(** [Can::abort] *)
Definition dev_abort (now : N) (m : nat) (d : device) : device :=
  match nth_error (d_mailboxes d) m with
  | Some (Some b) => Device (upd (d_mailboxes d) m None) (d_history d ++ [Aborted now b]) (d_fifo d) (d_banks d)
  | _ => d
  end.
(** The mailbox for the next frame: the first that is free, or the one whose frame has the greatest identifier *)
Fixpoint first_free (mbs : list (option bx_frame)) : option nat :=
  match mbs with [] => None | None :: _ => Some 0%nat | Some _ :: r => option_map S (first_free r) end.
Definition mailbox_id (mb : option bx_frame) : N := match mb with Some b => b_id b | None => 0 end.
Fixpoint lowest_priority (mbs : list (option bx_frame)) : nat :=
  match mbs with
  | [] => O
  | mb :: r => if forallb (fun x => mailbox_id x <=? mailbox_id mb) r then O else S (lowest_priority r)
  end.
Definition next_mailbox (mbs : list (option bx_frame)) : nat := match first_free mbs with Some m => m | None => lowest_priority mbs end.
(** [Can::transmit]: [None] is [WouldBlock]; otherwise the mailbox and the frame that was in it *)
Definition dev_transmit (b : bx_frame) (d : device) : option (device * nat * option bx_frame) :=
  if forallb (fun mb => match mb with Some p => b_id b <? b_id p | None => true end) (d_mailboxes d)
  then let m := next_mailbox (d_mailboxes d) in
       Some (Device (upd (d_mailboxes d) m (Some b)) (d_history d) (d_fifo d) (d_banks d), m, match nth_error (d_mailboxes d) m with Some mb => mb | None => None end)
  else None.
(** A frame on the bus, which the filters let through or not *)
Definition bank_accepts (b : bx_frame) (k : option bank) : bool :=
  match k with
  | None => false
  | Some BankAll => true
  | Some (BankMask id mask) => b_extended b && (N.land mask (b_id b) =? N.land mask id)
  end.
Definition dev_arrive (b : bx_frame) (d : device) : device :=
  if existsb (bank_accepts b) (d_banks d) then Device (d_mailboxes d) (d_history d) (d_fifo d ++ [Arrived b]) (d_banks d) else d.
Definition dev_overrun (d : device) : device := Device (d_mailboxes d) (d_history d) (d_fifo d ++ [Overrun]) (d_banks d).

(** * canadensis_bxcan *)

(** lib.rs:38 *)
Definition LOOPBACK_CAPACITY : nat := 2.
(** lib.rs:41-49 [BxCanDriver]; 274-277 [DeadlineTracker] *)
Record bx_driver := Bx { bx_can : device; bx_deadlines : list (option N); bx_loopback : list frame }.
(** lib.rs:55-62 [new]; the device has [banks] filter banks *)
Definition bx_new (banks : nat) : bx_driver := Bx (Device [None; None; None] [] [] (repeat None banks)) [None; None; None] [].
(** [now > deadline]: see [t_lt] *)
Definition t_gt (a b : N) : bool := if a =? b then false else t_sub a b <=? 2 ^ 31 - 1.
(** lib.rs:252-269 [clean_expired_frames], for mailbox [m] *)
Definition clean_mailbox (deadlines : list (option N)) (now : N) (m : nat) (d : device) : device :=
  match nth_error deadlines m with Some (Some deadline) => if t_gt now deadline then dev_abort now m d else d | _ => d end.
Definition clean_expired (deadlines : list (option N)) (now : N) (d : device) : device :=
  clean_mailbox deadlines now 2 (clean_mailbox deadlines now 1 (clean_mailbox deadlines now 0 d)).
(** lib.rs:300-309 [cyphal_frame_to_bxcan]: [ExtendedId::new(..).unwrap()], [Data::new(..).expect(..)] *)
Definition to_bxcan (f : frame) : res bx_frame :=
  if f_id f <? 2 ^ 29 then if (length (f_data f) <=? 8)%nat then Ok (BxFrame true (f_id f) (Some (f_data f))) else Panic else Panic.
(** lib.rs:311-330 [bxcan_frame_to_cyphal]; the data have at most 8 bytes *)
Definition of_bxcan (b : bx_frame) (timestamp : N) : option frame :=
  if b_extended b
  then if b_id b <? 2 ^ 29 then match b_data b with Some data => Some (Frame timestamp (b_id b) false data) | None => None end else None
  else None.
(** lib.rs:83-113 [transmit_inner] *)
Definition transmit_inner (f : frame) (deadline : N) (x : bx_driver) : res (bx_driver * tx_res) :=
  match to_bxcan f with
  | Panic => Panic
  | Ok b =>
      match dev_transmit b (bx_can x) with
      | None => Ok (x, TxWouldBlock)
      | Some (can, m, dequeued) =>
          let replaced := match nth_error (bx_deadlines x) m with Some d => d | None => None end in
          let x' := Bx can (upd (bx_deadlines x) m (Some deadline)) (bx_loopback x) in
          Ok (x', TxOk match dequeued, replaced with Some g, Some d => of_bxcan g d | _, _ => None end)
      end
  end.
(** lib.rs:166-187 [transmit] *)
Definition bx_transmit (now : N) (f : frame) (x : bx_driver) : res (bx_driver * tx_res) :=
  let x := Bx (clean_expired (bx_deadlines x) now (bx_can x)) (bx_deadlines x) (bx_loopback x) in
  if t_lt (f_ts f) now then Ok (x, TxOk None)
  else match transmit_inner f (f_ts f) x with
       | Panic => Panic
       | Ok (x', r) =>
           let loopback := match r with TxOk _ => f_loop f | _ => false end in
           let full := (LOOPBACK_CAPACITY <=? length (bx_loopback x'))%nat in
           Ok (if loopback && negb full then Bx (bx_can x') (bx_deadlines x') (bx_loopback x' ++ [Frame now (f_id f) (f_loop f) (f_data f)]) else x', r)
       end.
(** lib.rs:156-164 [try_reserve] *)
Definition bx_reserve (frames : nat) : bool := (frames =? 1)%nat.
Inductive rx_res := RxFrame (f : frame) | RxWouldBlock | RxOverrun.
(** lib.rs:119-137 [receive_from_bus] *)
Fixpoint receive_from_bus (now : N) (fifo : list arrival) : list arrival * rx_res :=
  match fifo with
  | [] => ([], RxWouldBlock)
  | Overrun :: r => (r, RxOverrun)
  | Arrived b :: r => match of_bxcan b now with Some f => (r, RxFrame f) | None => receive_from_bus now r end
  end.
(** lib.rs:138-146, 208-215 [receive_loopback], [receive] *)
Definition bx_receive (now : N) (x : bx_driver) : bx_driver * rx_res :=
  let (fifo, r) := receive_from_bus now (d_fifo (bx_can x)) in
  let can := Device (d_mailboxes (bx_can x)) (d_history (bx_can x)) fifo (d_banks (bx_can x)) in
  match r with
  | RxWouldBlock => match bx_loopback x with
                    | [] => (Bx can (bx_deadlines x) [], RxWouldBlock)
                    | f :: l => (Bx can (bx_deadlines x) l, RxFrame f)
                    end
  | _ => (Bx can (bx_deadlines x) (bx_loopback x), r)
  end.
(** [clear] and [enable_bank] of the filters; the latter panics if there is no bank [i] *)
Definition clear_banks (banks : list (option bank)) : list (option bank) := map (fun _ => None) banks.
Definition enable_bank (i : nat) (k : bank) (banks : list (option bank)) : res (list (option bank)) := store banks i (Some k).
Fixpoint enable_banks (i : nat) (fs : list filter_t) (banks : list (option bank)) : res (list (option bank)) :=
  match fs with
  | [] => Ok banks
  | f :: r => match enable_bank i (BankMask (filter_id f) (fl_mask f)) banks with Ok banks => enable_banks (S i) r banks | Panic => Panic end
  end.
Definition set_banks (x : bx_driver) (banks : list (option bank)) : bx_driver :=
  Bx (Device (d_mailboxes (bx_can x)) (d_history (bx_can x)) (d_fifo (bx_can x)) banks) (bx_deadlines x) (bx_loopback x).
(** lib.rs:244-249 [apply_accept_all] *)
Definition bx_accept_all (x : bx_driver) : res bx_driver :=
  match enable_bank 0 BankAll (clear_banks (d_banks (bx_can x))) with Ok banks => Ok (set_banks x banks) | Panic => Panic end.
(** lib.rs:217-242 [apply_filters]; [alloc] says which allocations succeed *)
Definition bx_filters (local : option N) (ps : list port) (alloc : nat -> bool) (x : bx_driver) : res bx_driver :=
  match optimize_filters local ps (length (d_banks (bx_can x))) alloc with
  | Panic => Panic
  | Ok None => bx_accept_all x
  | Ok (Some fs) => match enable_banks 0 fs (clear_banks (d_banks (bx_can x))) with Ok banks => Ok (set_banks x banks) | Panic => Panic end
  end.

(** * What happens to a driver *)

Inductive bx_op :=
| OpTransmit (now : N) (f : frame) | OpReceive (now : N) | OpFilters (local : option N) (ps : list port) (alloc : nat -> bool) | OpAcceptAll
| OpSend (m : nat) | OpArrive (b : bx_frame) | OpOverrun.
Inductive bx_out := OutTx (r : tx_res) | OutRx (r : rx_res) | OutNothing.
Definition on_device (g : device -> device) (x : bx_driver) : bx_driver := Bx (g (bx_can x)) (bx_deadlines x) (bx_loopback x).
Definition bx_step (o : bx_op) (x : bx_driver) : res (bx_driver * bx_out) :=
  match o with
  | OpTransmit now f => match bx_transmit now f x with Ok (x', r) => Ok (x', OutTx r) | Panic => Panic end
  | OpReceive now => let (x', r) := bx_receive now x in Ok (x', OutRx r)
  | OpFilters local ps alloc => match bx_filters local ps alloc x with Ok x' => Ok (x', OutNothing) | Panic => Panic end
  | OpAcceptAll => match bx_accept_all x with Ok x' => Ok (x', OutNothing) | Panic => Panic end
  | OpSend m => Ok (on_device (dev_send m) x, OutNothing)
  | OpArrive b => Ok (on_device (dev_arrive b) x, OutNothing)
  | OpOverrun => Ok (on_device dev_overrun x, OutNothing)
  end.
(** A history: each operation with its result *)
Fixpoint bx_run (ops : list bx_op) (x : bx_driver) : res (bx_driver * list (bx_op * bx_out)) :=
  match ops with
  | [] => Ok (x, [])
  | o :: r => match bx_step o x with
              | Panic => Panic
              | Ok (x1, out) => match bx_run r x1 with Panic => Panic | Ok (x2, l) => Ok (x2, (o, out) :: l) end
              end
  end.

(** * The driver behind a queue: canadensis_can/src/queue/mod.rs with [BxCanDriver] *)

(** Time and hardware: at the [k]th reading of the clock it is [fst (script k)]; before that, the mailboxes [snd (script k)] are sent *)
Section Script.
  Context (script : nat -> N * list nat).
  Definition sends (ms : list nat) (x : bx_driver) : bx_driver := fold_left (fun x m => on_device (dev_send m) x) ms x.
  (** The driver, or [Panic] once it has panicked, and how often the clock was read *)
  Definition clock_now (w : res bx_driver * nat) : res bx_driver * nat * N :=
    let (x, k) := w in ((match x with Ok x => Ok (sends (snd (script k)) x) | Panic => Panic end, S k), fst (script k)).
  Definition clock_transmit (w : res bx_driver * nat) (f : frame) : res bx_driver * nat * tx_res :=
    let (w, now) := clock_now w in
    let (x, k) := w in
    match x with
    | Panic => ((Panic, k), TxError)
    | Ok x => match bx_transmit now f x with Ok (x', r) => ((Ok x', k), r) | Panic => ((Panic, k), TxError) end
    end.
  (** mod.rs:138-182 with this driver *)
  Definition bx_flush (fuel : nat) (q : array_queue) (w : res bx_driver * nat) : res (option (array_queue * (res bx_driver * nat) * flush_res)) :=
    flush_queue aq_ops clock_now clock_transmit fuel q w.
End Script.

(** * canadensis_linux *)

(** What is read from a socket: [read_frame], as far as it is of interest: identifiers, data (none in remote frames), or an error *)
Inductive socket_in := SocketFrame (b : bx_frame) | SocketWouldBlock | SocketError.
Inductive linux_rx := LinuxFrame (f : frame) | LinuxWouldBlock | LinuxError.
(** lib.rs:90-117 [receive]; [capacity] is [FRAME_CAPACITY]; [None]: the frames have run out before an answer *)
Fixpoint linux_receive (capacity : nat) (now : N) (input : list socket_in) : option (list socket_in * res linux_rx) :=
  match input with
  | [] => None
  | SocketWouldBlock :: r => Some (r, Ok LinuxWouldBlock)
  | SocketError :: r => Some (r, Ok LinuxError)
  | SocketFrame b :: r =>
      let data := match b_data b with Some data => data | None => [] end in
      if (length data <=? capacity)%nat
      then if b_extended b then Some (r, if b_id b <? 2 ^ 29 then Ok (LinuxFrame (Frame now (b_id b) false data)) else Panic) else linux_receive capacity now r
      else linux_receive capacity now r
  end.
(** How [write_frame_insist] ends *)
Inductive socket_out := Written | WriteWouldBlock | WriteError.
(** lib.rs:48-76 [transmit]: the frame that is written, and the result; [limit] is the greatest length of the frames of the socket *)
Definition linux_transmit (limit : nat) (now : N) (f : frame) (write : bx_frame -> socket_out) : res (option bx_frame * tx_res) :=
  if t_lt (f_ts f) now then Ok (None, TxOk None)
  else if (f_id f <? 2 ^ 29) && (length (f_data f) <=? limit)%nat
       then let b := BxFrame true (f_id f) (Some (f_data f)) in
            Ok match write b with Written => (Some b, TxOk None) | WriteWouldBlock => (None, TxWouldBlock) | WriteError => (None, TxError) end
       else Panic.
(** lib.rs:119-131 [apply_filters]: the filters of the socket.  The optimizer is called with [usize::MAX], which no list exceeds;
    the kernel takes at most [max] filters ([CAN_RAW_FILTER_MAX], 512); allocation fails if [alloc] says so *)
Definition linux_filters (max : nat) (local : option N) (ps : list port) (alloc : nat -> bool) : res (list filter_t) :=
  match optimize_filters local ps (S (length ps)) alloc with
  | Ok (Some fs) => if (length fs <=? max)%nat then Ok fs else Panic
  | _ => Panic
  end.
(** The kernel compares without the flag for extended identifiers, which is not in the mask *)
Definition socket_accepts (fs : list filter_t) (b : bx_frame) : bool := existsb (fun f => N.land (fl_mask f) (b_id b) =? N.land (fl_mask f) (filter_id f)) fs.
(** lib.rs:165-171 [SystemClock::now], [micros] after the start *)
Definition system_clock (micros : N) : N := w32 micros.
