(** Model of CAN transmission: canadensis_can/src/{tx,lib,data}.rs and tx/breakdown.rs. *)
From Verif Require Import Base CoreModel CrcModel CanIdModel.

(** data.rs:95-106 [Frame] *)
Record frame := Frame { f_ts : N; f_id : N; f_loop : bool; f_data : list N }.

(** data.rs:126-133 [Frame::new] with [set_loopback] (143-145); [fcap] is FRAME_CAPACITY (69-73) *)
Definition frame_new (fcap : nat) (ts id : N) (loop : bool) (data : list N) : res frame :=
  if (length data <=? fcap)%nat then Ok (Frame ts id loop data) else Panic.

(** lib.rs:84-96 [round_up_frame_length] *)
Definition round_up (n : nat) : res nat :=
  if (n <=? 8)%nat then Ok n
  else if (n <=? 12)%nat then Ok 12%nat
  else if (n <=? 16)%nat then Ok 16%nat
  else if (n <=? 20)%nat then Ok 20%nat
  else if (n <=? 24)%nat then Ok 24%nat
  else if (n <=? 32)%nat then Ok 32%nat
  else if (n <=? 48)%nat then Ok 48%nat
  else if (n <=? 64)%nat then Ok 64%nat
  else Panic.

(** [usize::div_ceil] *)
Definition div_ceil (a b : nat) : nat := if (a mod b =? 0)%nat then (a / b)%nat else S (a / b).

(** lib.rs:41-70 [calculate_frame_stats]: (frames, last_frame_padding) *)
Definition frame_stats (len mtu : nat) : res (nat * nat) :=
  if negb (mtu <=? 64)%nat then Panic
  else if negb (1 <? mtu)%nat then Panic
  else
    let m := (mtu - 1)%nat in
    let crc_length := if (len <=? m)%nat then O else 2%nat in
    let tails := Nat.max 1 (div_ceil (len + crc_length) m) in
    let total := (len + crc_length + tails)%nat in
    let frames := div_ceil total mtu in
    let last := (total mod mtu)%nat in
    match round_up last with
    | Panic => Panic
    | Ok rounded => Ok (frames, (rounded - last)%nat)
    end.

(** tx/breakdown.rs:14-27 [Breakdown] *)
Record breakdown := Breakdown { bd_mtu : nat; bd_tid : N; bd_start : bool; bd_toggle : bool; bd_frame : list N }.
(** tx/breakdown.rs:30-38 [Breakdown::new] *)
Definition bd_new (mtu : nat) (tid : N) : breakdown := Breakdown mtu tid true true [].
(** [heapless::Vec<u8, 64>::push(..).expect(..)] *)
Definition vec64_push (l : list N) (b : N) : res (list N) :=
  if (length l <? 64)%nat then Ok (l ++ [b]) else Panic.
(** tx/breakdown.rs:43-70 [Breakdown::add] *)
Definition bd_add (b : breakdown) (byte : N) : res (breakdown * option (list N)) :=
  if (length (bd_frame b) =? bd_mtu b - 1)%nat then
    match vec64_push (bd_frame b) (make_tail (bd_start b) false (bd_toggle b) (bd_tid b)) with
    | Panic => Panic
    | Ok full =>
        match vec64_push [] byte with
        | Panic => Panic
        | Ok next => Ok (Breakdown (bd_mtu b) (bd_tid b) false (negb (bd_toggle b)) next, Some full)
        end
    end
  else
    match vec64_push (bd_frame b) byte with
    | Panic => Panic
    | Ok next => Ok (Breakdown (bd_mtu b) (bd_tid b) (bd_start b) (bd_toggle b) next, None)
    end.
(** tx/breakdown.rs:73-84 [Breakdown::finish] *)
Definition bd_finish (b : breakdown) : res (list N) :=
  vec64_push (bd_frame b) (make_tail (bd_start b) true (bd_toggle b) (bd_tid b)).

(** Result of [TransmitDriver::transmit] (driver.rs:37): [TxOk] carries the frame displaced from the hardware. *)
Inductive tx_res := TxOk (displaced : option frame) | TxWouldBlock | TxError.
(** Result of a push: tx.rs:56-83 *)
Inductive push_res := PushOk | PushMemory | PushWouldBlock | PushDriver.

Section Push.
Context {D : Type}.
(** driver.rs:20-41 [TransmitDriver]: the two functions used by a push, as a parameter *)
Variable reserve : D -> nat -> D * bool.
Variable transmit : D -> frame -> D * tx_res.

(** tx.rs:198-211 [push_frame]; [None] means success *)
Definition push_frame (fcap : nat) (ts id : N) (loop : bool) (d : D) (data : list N) : res (D * option push_res) :=
  match frame_new fcap ts id loop data with
  | Panic => Panic
  | Ok f =>
      match transmit d f with
      | (d', TxOk _) => Ok (d', None)
      | (d', TxWouldBlock) => Ok (d', Some PushWouldBlock)
      | (d', TxError) => Ok (d', Some PushDriver)
      end
  end.

(** tx.rs:146-160 and 167-180, the loops over payload and padding bytes, and over CRC bytes; [n] counts the frames *)
Fixpoint push_bytes (send : D -> list N -> res (D * option push_res)) (bytes : list N) (d : D) (b : breakdown) (n : nat)
  : res (D * breakdown * nat * option push_res) :=
  match bytes with
  | [] => Ok (d, b, n, None)
  | byte :: r =>
      match bd_add b byte with
      | Panic => Panic
      | Ok (b', None) => push_bytes send r d b' n
      | Ok (b', Some data) =>
          match send d data with
          | Panic => Panic
          | Ok (d', Some e) => Ok (d', b', n, Some e)
          | Ok (d', None) => push_bytes send r d' b' (S n)
          end
      end
  end.

(** tx.rs:120-193 [push_inner].  Simplification: the CRC is computed over the whole of payload and padding at once; the
    code updates it byte by byte in the same order. *)
Definition push_inner (fcap mtu : nat) (d : D) (t : transfer) : res (D * push_res) :=
  match frame_stats (length (t_payload t)) mtu with
  | Panic => Panic
  | Ok (frames, padding) =>
      match reserve d frames with
      | (d1, false) => Ok (d1, PushMemory)
      | (d1, true) =>
          match make_can_id (t_header t) (t_payload t) with
          | Panic => Panic
          | Ok id =>
              let send := push_frame fcap (h_ts (t_header t)) id (t_loopback t) in
              let body := t_payload t ++ repeat 0 padding in
              match push_bytes send body d1 (bd_new mtu (h_tid (t_header t))) O with
              | Panic => Panic
              | Ok (d2, _, _, Some e) => Ok (d2, e)
              | Ok (d2, b2, n2, None) =>
                  let crc := crc16 body in
                  let crc_bytes := if (n2 =? 0)%nat then [] else [w8 (N.shiftr crc 8); w8 crc] in
                  match push_bytes send crc_bytes d2 b2 n2 with
                  | Panic => Panic
                  | Ok (d3, _, _, Some e) => Ok (d3, e)
                  | Ok (d3, b3, _, None) =>
                      match bd_finish b3 with
                      | Panic => Panic
                      | Ok data =>
                          match send d3 data with
                          | Panic => Panic
                          | Ok (d4, None) => Ok (d4, PushOk)
                          | Ok (d4, Some e) => Ok (d4, e)
                          end
                      end
                  end
              end
          end
      end
  end.

(** tx.rs:26-40 [CanTransmitter] *)
Record can_tx := CanTx { tx_mtu : nat; tx_transfers : N; tx_errors : N }.
(** tx.rs:103-111, 116-118 [new], [set_mtu] *)
Definition can_tx_new (mtu : nat) : can_tx := CanTx mtu 0 0.
(** tx.rs:56-83 [push]: the counters are u64 and wrap *)
Definition can_push (fcap : nat) (x : can_tx) (d : D) (t : transfer) : res (can_tx * D * push_res) :=
  match push_inner fcap (tx_mtu x) d t with
  | Panic => Panic
  | Ok (d', PushOk) => Ok (CanTx (tx_mtu x) (w64 (tx_transfers x + 1)) (tx_errors x), d', PushOk)
  | Ok (d', e) => Ok (CanTx (tx_mtu x) (tx_transfers x) (w64 (tx_errors x + 1)), d', e)
  end.
End Push.
