(** Property theorems for canadensis_core/src/crc.rs. *)
From Verif Require Import Base BitLemmas CrcModel CrcProofs.

(** C01: for every stream the tracker releases exactly all bytes but the last four, in order, and accepts exactly
    the streams that are some data followed by that data's CRC-32C in little-endian. *)
Theorem C01_crc_tracker : forall bs,
  bytes_ok bs ->
  let '(t, released) := tracker_run tracker_new bs in
  released = firstn (length bs - 4) bs /\
  (tracker_correct t = true <-> exists data, bs = data ++ le_bytes 4 (crc32 data)).
Proof. exact tracker_spec. Qed.
Print Assumptions C01_crc_tracker.

Example C01_witness :
  let bs := [1; 2; 3] ++ le_bytes 4 (crc32 [1; 2; 3]) in
  bytes_ok bs /\ tracker_correct (fst (tracker_run tracker_new bs)) = true /\
  snd (tracker_run tracker_new bs) = [1; 2; 3].
Proof. split; [repeat constructor; vm_compute; reflexivity|]. vm_compute. split; reflexivity. Qed.

(** Known-answer check that the model is CRC-32C and CRC-16/CCITT-FALSE ("123456789"). *)
Example crc_known_answers :
  crc32 [49;50;51;52;53;54;55;56;57] = 0xE3069283 /\ crc16 [49;50;51;52;53;54;55;56;57] = 0x29B1.
Proof. vm_compute. split; reflexivity. Qed.

(** C02: appending the CRC to any data gives an accepted string. *)
Theorem C02_crc16_append_accepted : forall data, crc16 (data ++ be_bytes 2 (crc16 data)) = 0.
Proof. exact crc16_residue. Qed.
Print Assumptions C02_crc16_append_accepted.

(** C02: only the CRC of the data is accepted behind it. *)
Theorem C02_crc16_accepts_only_crc : forall data a b,
  is_byte a -> is_byte b -> crc16 (data ++ [a; b]) = 0 -> [a; b] = be_bytes 2 (crc16 data).
Proof. exact crc16_residue_inv. Qed.
Print Assumptions C02_crc16_accepts_only_crc.

(** C02: two accepted strings that differ only within two adjacent bytes are equal (CRC-16). *)
Theorem C02_crc16_detects_bursts : forall pre a b suf,
  bytes_ok (pre ++ a ++ suf) -> bytes_ok (pre ++ b ++ suf) ->
  length a = length b -> (length a <= 2)%nat ->
  crc16 (pre ++ a ++ suf) = 0 -> crc16 (pre ++ b ++ suf) = 0 -> a = b.
Proof. exact crc16_accept_burst. Qed.
Print Assumptions C02_crc16_detects_bursts.

(** C02: two streams the CRC-32C tracker accepts that differ only within four adjacent bytes are equal. *)
Theorem C02_crc32_detects_bursts : forall pre a b suf,
  bytes_ok (pre ++ a ++ suf) -> bytes_ok (pre ++ b ++ suf) ->
  length a = length b -> (length a <= 4)%nat ->
  tracker_correct (fst (tracker_run tracker_new (pre ++ a ++ suf))) = true ->
  tracker_correct (fst (tracker_run tracker_new (pre ++ b ++ suf))) = true -> a = b.
Proof.
  intros pre a b suf H1 H2 Hl H4 A1 A2.
  pose proof (tracker_spec _ H1) as S1. pose proof (tracker_spec _ H2) as S2.
  destruct (tracker_run tracker_new (pre ++ a ++ suf)), (tracker_run tracker_new (pre ++ b ++ suf)).
  exact (crc32_accept_burst pre a b suf H1 H2 Hl H4 (proj1 (proj2 S1) A1) (proj1 (proj2 S2) A2)).
Qed.
Print Assumptions C02_crc32_detects_bursts.

Example C02_witness :
  crc16 ([1; 2] ++ [3; 4] ++ [5] ++ be_bytes 2 (crc16 [1; 2; 3; 4; 5])) = 0 /\
  crc16 ([1; 2] ++ [3; 5] ++ [5] ++ be_bytes 2 (crc16 [1; 2; 3; 4; 5])) <> 0 /\
  tracker_correct (fst (tracker_run tracker_new ([1; 2] ++ [3; 4] ++ le_bytes 4 (crc32 [1; 2; 3; 4])))) = true.
Proof. vm_compute. repeat split; discriminate. Qed.
