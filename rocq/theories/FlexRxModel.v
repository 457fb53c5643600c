(** Model of the rest of the FlexCAN driver in examples/s32k146_node/src: receiving from the legacy FIFO, the memory of the message buffers, and
    the bit timing. *)
From Verif Require Import Base FlexModel.

(** ** Receiving: flexcan/fifo_legacy.rs and mod.rs *)
(** fifo_legacy.rs:84-97 [Header]; the fields that are used *)
Record fifo_header := FifoHeader { fh_id : N; fh_remote : bool; fh_srr : bool; fh_dlc : N; fh_timestamp : N; fh_filter_index : N }.
(** fifo_legacy.rs:32-60 [LegacyFifo::read_header]; [Dlc::from_u8] does not fail because of the mask *)
Definition fifo_read_header (flags id : N) : fifo_header :=
  FifoHeader (if flag flags 21 then id_extended (N.land id EXTENDED_ID_MASK) else id_standard (N.shiftr id 18 mod 65536))
    (flag flags 20) (flag flags 22) (N.land (N.shiftr flags 16) 15) (flags mod 65536) (N.shiftr flags 23 mod 65536).
(** fifo_legacy.rs:70-81 [LegacyFifo::read_data] into [count] bytes that are zero before *)
Definition fifo_read_data (count : nat) (data : list N) : list N :=
  map (fun i => if (i <? Nat.min count 8)%nat then nth (shift_index i) data 0 else 0) (seq 0 count).
(** mod.rs:319-341 [FlexCan::receive].  The controller keeps the received frames: the first is what the driver reads, the flag is set while there
    is one, and clearing the flag removes it. *)
Definition receive (fifo : list message) : ended (option frame) * list message :=
  match fifo with
  | [] => (Returns None, [])
  | m :: rest =>
      let h := fifo_read_header (m_cs m) (m_id m) in
      if (8 <? dlc_length (fh_dlc h))%nat then (Panics, m :: rest)
      else
        let data := fifo_read_data (dlc_length (fh_dlc h)) (m_data m) in
        (match (if fh_remote h then frame_new_remote (fh_id h) (fh_dlc h) else frame_new (fh_id h) data) with
         | Some f => Returns (Some f)
         | None => Panics
         end, rest)
  end.
(** main.rs:323-341 [FlexCanDriver::receive]: a frame for the node with its identifier and data, or nothing ([WouldBlock]).  [CanId::try_from] fails for
    more than 29 bits.  Times are not modelled: the clock of the example is always zero. *)
Definition driver_receive (fifo : list message) : ended (option (N * list N)) * list message :=
  match receive fifo with
  | (Returns (Some f), rest) =>
      if negb (id_is_extended (fr_id f)) then (Returns None, rest)
      else if id_bits (fr_id f) <? 2 ^ 29 then (Returns (Some (id_bits (fr_id f), frame_data f)), rest) else (Panics, rest)
  | (Returns None, rest) => (Returns None, rest)
  | (Panics, rest) => (Panics, rest)
  | (Waits, rest) => (Waits, rest)
  end.
(** A history: frames arrive, and [receive] is called *)
Inductive event := Arrives (m : message) | Call.
Fixpoint receives (fifo : list message) (es : list event) : list (ended (option frame)) * list message :=
  match es with
  | [] => ([], fifo)
  | Arrives m :: es => receives (fifo ++ [m]) es
  | Call :: es => let (r, fifo) := receive fifo in let (rs, fifo) := receives fifo es in (r :: rs, fifo)
  end.
Fixpoint driver_receives (fifo : list message) (es : list event) : list (ended (option (N * list N))) * list message :=
  match es with
  | [] => ([], fifo)
  | Arrives m :: es => driver_receives (fifo ++ [m]) es
  | Call :: es => let (r, fifo) := driver_receive fifo in let (rs, fifo) := driver_receives fifo es in (r :: rs, fifo)
  end.

(** ** The memory of the message buffers: flexcan/blocks.rs and config.rs *)
(** blocks.rs:120-129 *)
Inductive buffer_size := Bytes8 | Bytes16 | Bytes32 | Bytes64.
(** blocks.rs:132-138 *)
Definition buffer_bytes (b : buffer_size) : nat := match b with Bytes8 => 16 | Bytes16 => 24 | Bytes32 => 40 | Bytes64 => 72 end.
(** blocks.rs:141 *)
Definition block_bytes : nat := 512.
(** blocks.rs:142-155 [message_capacity_per_block] *)
Definition capacity_per_block (b : buffer_size) : nat := match b with Bytes8 => 32 | Bytes16 => 21 | Bytes32 => 12 | Bytes64 => 7 end.
(** blocks.rs:159-161 [message_capacity_per_half_block] *)
Definition capacity_per_half_block (b : buffer_size) : nat := (capacity_per_block b / 2)%nat.
(** blocks.rs:52-116: [HalfBlock], or one to four blocks *)
Inductive blocks := HalfBlock (b : buffer_size) | Blocks (l : list buffer_size).
(** blocks.rs:80, 91, 98, 105, 112 [BUFFER_BYTES] *)
Definition memory_bytes (k : blocks) : nat := match k with HalfBlock _ => (block_bytes / 2)%nat | Blocks l => (block_bytes * length l)%nat end.
(** blocks.rs:62-70 [messages_per_buffer]: four numbers; 85-87 for half a block *)
Definition messages_per_buffer (k : blocks) : list nat :=
  match k with
  | HalfBlock b => [capacity_per_half_block b; 0; 0; 0]%nat
  | Blocks l => firstn 4 (map capacity_per_block l ++ [0; 0; 0; 0]%nat)
  end.
(** blocks.rs:73-75 [total_messages] *)
Definition total_messages (k : blocks) : nat := fold_right Nat.add 0%nat (messages_per_buffer k).
(** config.rs:12-15 *)
Definition buffer_start : nat := 128.
Definition fifo_fixed : nat := 96.
(** config.rs:154-157 [legacy_fifo_space]: begin and end *)
Definition legacy_fifo_space (filters : nat) : nat * nat := (buffer_start, buffer_start + (fifo_fixed + 4 * filters))%nat.
(** config.rs:183-190 [message_buffer_space] *)
Definition message_buffer_space (index size : nat) : nat * nat :=
  let per_block := (block_bytes / size)%nat in
  let start := (buffer_start + block_bytes * (index / per_block) + size * (index mod per_block))%nat in
  (start, start + size)%nat.
(** mod.rs:347-351 [buffer_blocks_mut], buffer.rs:100-140: the address of message [i] of block [block], relative to the registers *)
Definition block_message (block i : nat) (b : buffer_size) : nat := (buffer_start + block_bytes * block + buffer_bytes b * i)%nat.

(** ** Bit timing: flexcan/config.rs and mod.rs *)
(** config.rs:77-82, 96-105, 123-131 *)
Inductive jump_width := Width1 | Width2 | Width3 | Width4.
Inductive segment := Length1 | Length2 | Length3 | Length4 | Length5 | Length6 | Length7 | Length8.
Inductive segment2 := Two | Three | Four | Five | Six | Seven | Eight.
(** config.rs:85-92, 108-119, 134-144 [bits] *)
Definition jump_bits (w : jump_width) : N := match w with Width1 => 0 | Width2 => 1 | Width3 => 2 | Width4 => 3 end.
Definition segment_bits (s : segment) : N :=
  match s with Length1 => 0 | Length2 => 1 | Length3 => 2 | Length4 => 3 | Length5 => 4 | Length6 => 5 | Length7 => 6 | Length8 => 7 end.
Definition segment2_bits (s : segment2) : N := match s with Two => 1 | Three => 2 | Four => 3 | Five => 4 | Six => 5 | Seven => 6 | Eight => 7 end.
(** config.rs:62-75 [StandardTiming]; the prescaler is not zero *)
Record timing := Timing { t_prescaler : N; t_jump : jump_width; t_propagation : segment; t_phase_1 : segment; t_phase_2 : segment2 }.
(** svd_generated/generic.rs:277-280: writing [value] to a field of [width] bits at [offset] *)
Definition set_field (word offset width value : N) : N :=
  N.lor (N.ldiff word (N.shiftl (N.ones width) offset)) (N.shiftl (N.land value (N.ones width)) offset).
(** mod.rs:156-167: the register CTRL1; svd_generated/can/ctrl1.rs:693, 753-769 for the offsets *)
Definition set_timing (ctrl1 : N) (t : timing) : N :=
  set_field (set_field (set_field (set_field (set_field ctrl1
    24 8 (t_prescaler t - 1)) 22 2 (jump_bits (t_jump t))) 19 3 (segment_bits (t_phase_1 t)))
    16 3 (segment2_bits (t_phase_2 t))) 0 3 (segment_bits (t_propagation t)).
