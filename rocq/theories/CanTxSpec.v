(** Specification of Cyphal/CAN segmentation (Cyphal specification 4.2.3): what frames a transfer is cut into. *)
From Verif Require Import Base CoreModel CrcModel CanSpec CanTxModel.

(** Data lengths a CAN FD frame can have. *)
Definition valid_len (n : nat) : Prop := (n <= 8)%nat \/ In n [12; 16; 20; 24; 32; 48; 64]%nat.

(** The tail byte: start and end of transfer, toggle, transfer ID. *)
Definition tail_byte (start stop toggle : bool) (tid : N) : N :=
  (if start then 128 else 0) + (if stop then 64 else 0) + (if toggle then 32 else 0) + tid.

(** [segmented mtu t frames pad id]: [frames] are the frames of transfer [t], with [pad] bytes of padding and identifier
    [id]: chunks of [mtu - 1] bytes (the last may be shorter) of payload, padding and, for a transfer of several frames,
    CRC, each followed by its tail byte. *)
Definition segmented (mtu : nat) (t : transfer) (frames : list frame) (pad : nat) (id : N) : Prop :=
  exists chunks,
    concat chunks = t_payload t ++ repeat 0 pad ++
      (if (1 <? length chunks)%nat then be_bytes 2 (crc16 (t_payload t ++ repeat 0 pad)) else []) /\
    (1 <= length chunks)%nat /\
    (forall i c, nth_error chunks i = Some c ->
       (length c <= mtu - 1)%nat /\ ((S i < length chunks)%nat -> length c = (mtu - 1)%nat) /\
       ((1 < length chunks)%nat -> (1 <= length c)%nat)) /\
    length frames = length chunks /\
    (forall i c, nth_error chunks i = Some c ->
       nth_error frames i =
       Some (Frame (h_ts (t_header t)) id (t_loopback t)
               (c ++ [tail_byte (i =? 0)%nat (S i =? length chunks)%nat (Nat.even i) (h_tid (t_header t))]))).

(** Handing a list of frames to a driver one by one, stopping at the first one it does not take. *)
Fixpoint send_all {D} (transmit : D -> frame -> D * tx_res) (d : D) (fs : list frame) : D * push_res :=
  match fs with
  | [] => (d, PushOk)
  | f :: r =>
      match transmit d f with
      | (d', TxOk _) => send_all transmit d' r
      | (d', TxWouldBlock) => (d', PushWouldBlock)
      | (d', TxError) => (d', PushDriver)
      end
  end.
