(** Property theorems for canadensis_header/src/lib.rs. *)
From Verif Require Import Base CrcModel CoreModel HeaderModel HeaderSpec HeaderProofs.

(** C11: decoding the wire form of any header in range gives that header. *)
Theorem C11_header_round_trip : forall h, fheader_ok h -> header_decode (header_encode h) = Some h.
Proof. exact header_round_trip. Qed.
Print Assumptions C11_header_round_trip.

(** C11: the wire form is 24 bytes, has version 1 and a valid checksum. *)
Theorem C11_header_wire_form : forall h,
  bytes_ok (header_encode h) /\ length (header_encode h) = 24%nat /\
  nth 0 (header_encode h) 0 = 1 /\ crc16 (header_encode h) = 0.
Proof.
  intro h. destruct (header_encode_bytes h). repeat split; auto using header_encode_version, header_encode_crc.
Qed.
Print Assumptions C11_header_wire_form.

(** C11: converting a transfer header to a frame header and back loses nothing. *)
Theorem C11_core_header_round_trip : forall h,
  core_header_ok h ->
  option_map (fun f => as_core_header f (h_ts h)) (header_decode (header_encode (of_core_header h))) = Some h.
Proof.
  intros h H. destruct (core_of_core h H) as [Hok E]. rewrite header_round_trip by assumption. cbn. congruence.
Qed.
Print Assumptions C11_core_header_round_trip.

Example C11_witness :
  fheader_ok (FH 5 (DRequest 10 65534 511) 18446744073709551615 2147483647 true 77) /\
  core_header_ok (HMsg (MsgH 3 9 7 8191 None)).
Proof. split; repeat split; vm_compute; (reflexivity || discriminate). Qed.

(** C12: a 24-byte string decodes exactly if it is well-formed. *)
Theorem C12_header_decode_exact : forall b,
  bytes_ok b -> length b = 24%nat -> (header_decode b <> None <-> header_well_formed b).
Proof. exact header_decode_iff. Qed.
Print Assumptions C12_header_decode_exact.

(** C12: what is decoded is in range and, encoded again, gives the same bytes; the only field that is ignored is the
    destination of a message (which is 65535 in every message this library sends). *)
Theorem C12_header_reencode : forall b h,
  bytes_ok b -> length b = 24%nat -> header_decode b = Some h ->
  fheader_ok h /\
  (is_service_spec (fh_spec h) = true \/ u16_at 4 b = 65535 -> header_encode h = b) /\
  firstn 4 (header_encode h) = firstn 4 b /\ slice 6 16 (header_encode h) = slice 6 16 b.
Proof.
  intros b h Hb Hl H. split; [eapply header_decode_ok; eassumption|]. split.
  - apply header_reencode; assumption.
  - apply header_reencode_fields; assumption.
Qed.
Print Assumptions C12_header_reencode.

Example C12_witness :
  let b := header_encode (FH 5 (DResponse 10 20 30) 40 50 false 60) in
  header_well_formed b /\ header_decode b = Some (FH 5 (DResponse 10 20 30) 40 50 false 60) /\
  ~ header_well_formed (2 :: tl b).
Proof.
  split; [|split].
  - repeat split; vm_compute; (reflexivity || discriminate).
  - vm_compute. reflexivity.
  - intros [H _]. vm_compute in H. discriminate.
Qed.
