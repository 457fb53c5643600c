(** Model of canadensis_core/src/crc.rs. *)
From Verif Require Import Base.

(** crc.rs:100-101 [CRC32_XOR], [CRC32_REFLECTED_POLY] *)
Definition CRC32_XOR : N := 0xffffffff.
Definition CRC32_REFLECTED_POLY : N := 0x82f63b78.

(** crc.rs:127-131, one iteration of the bit loop in [Crc32c::digest] *)
Definition crc32_bit (v : N) : N :=
  if negb (N.eqb (N.land v 1) 0)
  then N.lxor (N.shiftr v 1) CRC32_REFLECTED_POLY
  else N.shiftr v 1.

(** crc.rs:124-133 [Crc32c::digest]: the state is the [value] field *)
Definition crc32_digest (v : N) (byte : N) : N := repeatn 8 crc32_bit (N.lxor v byte).

(** crc.rs:114-116 [Crc32c::new] *)
Definition crc32_new : N := CRC32_XOR.

(** crc.rs:119-121 [Crc32c::get_crc] *)
Definition crc32_get (v : N) : N := N.lxor v CRC32_XOR.

(** crc.rs:136-138 [Crc32c::digest_bytes] *)
Definition crc32_digest_bytes (v : N) (bs : list N) : N := fold_left crc32_digest bs v.

(** The CRC of a byte string: new, digest_bytes, get_crc *)
Definition crc32 (bs : list N) : N := crc32_get (crc32_digest_bytes crc32_new bs).

(** crc.rs:148-150 *)
Definition CRC16_INIT : N := 0xffff.
Definition CRC16_POLY : N := 0x1021.

(** crc.rs:171-175, one iteration of the bit loop in [Crc16CcittFalse::digest] ([<<] on u16 drops the top bit) *)
Definition crc16_bit (v : N) : N :=
  if negb (N.eqb (N.land v 0x8000) 0)
  then N.lxor (w16 (N.shiftl v 1)) CRC16_POLY
  else w16 (N.shiftl v 1).

(** crc.rs:168-177 [Crc16CcittFalse::digest] *)
Definition crc16_digest (v : N) (byte : N) : N :=
  repeatn 8 crc16_bit (N.lxor v (N.shiftl byte 8)).

(** crc.rs:163-165, 180-187 [new], [digest_bytes], [get_crc] *)
Definition crc16_new : N := CRC16_INIT.
Definition crc16_digest_bytes (v : N) (bs : list N) : N := fold_left crc16_digest bs v.
Definition crc16 (bs : list N) : N := crc16_digest_bytes crc16_new bs.

(** crc.rs:9-16 [CrcTracker] *)
Record tracker := Tracker {
  tr_crc : N;             (* crc: Crc32c *)
  tr_last : N;            (* last_four_bytes: u32 *)
  tr_count : N            (* bytes_processed: u8, saturating *)
}.

(** crc.rs:20-26 [CrcTracker::new] *)
Definition tracker_new : tracker := Tracker crc32_new 0 0.

(** crc.rs:32-44 [CrcTracker::digest] *)
Definition tracker_digest (t : tracker) (byte : N) : tracker * option N :=
  let byte_out := if N.leb 4 (tr_count t) then Some (w8 (tr_last t)) else None in
  let crc' := match byte_out with Some b => crc32_digest (tr_crc t) b | None => tr_crc t end in
  (Tracker crc'
           (N.lor (N.shiftl byte 24) (N.shiftr (tr_last t) 8))
           (N.min 255 (tr_count t + 1)),
   byte_out).

(** crc.rs:47-49 [CrcTracker::correct] *)
Definition tracker_correct (t : tracker) : bool :=
  N.leb 4 (tr_count t) && N.eqb (crc32_get (tr_crc t)) (tr_last t).

(** Feeding a whole stream: the final tracker and the released bytes in order. *)
Fixpoint tracker_run (t : tracker) (bs : list N) : tracker * list N :=
  match bs with
  | [] => (t, [])
  | b :: r =>
      let '(t', o) := tracker_digest t b in
      let '(t'', out) := tracker_run t' r in
      (t'', match o with Some x => x :: out | None => out end)
  end.
