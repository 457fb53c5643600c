(** C86: the checksums are those that the specification of Cyphal names. *)
From Verif Require Import Base CrcModel PnpModel PolySpec PolyProofs.

(** CRC-16/CCITT-FALSE: x^16 + x^12 + x^5 + 1, initial value 0xFFFF. *)
Theorem C86_crc16 : forall bytes, bytes_ok bytes -> remainder 0x11021 (preset 16 0xffff bytes) (crc16 bytes).
Proof. exact crc16_remainder. Qed.
Print Assumptions C86_crc16.
(** CRC-32C: polynomial 0x1EDC6F41, initial value and final sum 0xFFFFFFFF, bits of the bytes and of the result in reverse order. *)
Theorem C86_crc32c : forall bytes, bytes_ok bytes -> remainder 0x11EDC6F41 (preset 32 0xffffffff (map (reversed 8) bytes)) (reversed 32 (N.lxor (crc32 bytes) 0xffffffff)).
Proof. exact crc32_remainder. Qed.
Print Assumptions C86_crc32c.
(** CRC-64/WE: polynomial 0x42F0E1EBA9EA3693, initial value and final sum 0xFFFFFFFFFFFFFFFF. *)
Theorem C86_crc64we : forall bytes, bytes_ok bytes -> remainder 0x142F0E1EBA9EA3693 (preset 64 0xffffffffffffffff bytes) (N.lxor (crc64we bytes) 0xffffffffffffffff).
Proof. exact crc64_remainder. Qed.
Print Assumptions C86_crc64we.
(** A remainder determines the checksum. *)
Theorem C86_unique : forall g m r r', g <> 0 -> remainder g m r -> remainder g m r' -> r = r'.
Proof. exact remainder_unique. Qed.
Print Assumptions C86_unique.
(** The catalogue's check values, for the bytes of "123456789". *)
Example C86_witness : let bytes := [49; 50; 51; 52; 53; 54; 55; 56; 57] in bytes_ok bytes /\ crc16 bytes = 0x29b1 /\ crc32 bytes = 0xe3069283 /\ crc64we bytes = 0x62ec59e3f1a4f00a.
Proof. split; [repeat constructor|]. split; [|split]; vm_compute; reflexivity. Qed.
Example C86_product_witness : product 5 3 = 15 /\ product 3 3 = 5 /\ remainder 3 5 0 /\ remainder 3 4 1 /\ reversed 8 22 = 104.
Proof. split; [reflexivity|]. split; [reflexivity|]. split; [split; [reflexivity|exists 3; reflexivity]|]. split; [split; [reflexivity|exists 3; reflexivity]|reflexivity]. Qed.
