(** Specification for the Cyphal/UDP and Cyphal/serial frame header. *)
From Verif Require Import Base CrcModel CoreModel HeaderModel.

(** The values the Rust types of a [Header] can hold ([NodeId16], [SubjectId], [ServiceId], [Priority], u64, u16),
    with a frame index that leaves the top bit of the u32 free. *)
Definition node_ok (n : N) : Prop := n < 65535.
Definition dspec_ok (d : dspec) : Prop :=
  match d with
  | DSubject from s => match from with Some f => node_ok f | None => True end /\ s <= 8191
  | DRequest f t s => node_ok f /\ node_ok t /\ s <= 511
  | DResponse f t s => node_ok f /\ node_ok t /\ s <= 511
  end.
Definition fheader_ok (h : fheader) : Prop :=
  fh_prio h <= 7 /\ dspec_ok (fh_spec h) /\ fh_tid h < 2 ^ 64 /\ fh_index h < 2 ^ 31 /\ fh_data h < 2 ^ 16.

(** The same for a transfer header of a transport with 16-bit node IDs and 64-bit transfer IDs. *)
Definition svc_ok (s : svc_header) : Prop :=
  sh_tid s < 2 ^ 64 /\ sh_prio s <= 7 /\ sh_service s <= 511 /\ node_ok (sh_source s) /\ node_ok (sh_dest s).
Definition core_header_ok (h : header) : Prop :=
  match h with
  | HMsg m => mh_tid m < 2 ^ 64 /\ mh_prio m <= 7 /\ mh_subject m <= 8191 /\
              match mh_source m with Some f => node_ok f | None => True end
  | HReq s => svc_ok s
  | HResp s => svc_ok s
  end.

(** A well-formed 24-byte header, byte by byte. *)
Definition u16_at (i : nat) (b : list N) : N := nth i b 0 + 256 * nth (i + 1) b 0.
Definition header_well_formed (b : list N) : Prop :=
  nth 0 b 0 = 1 /\ crc16 b = 0 /\ nth 1 b 0 <= 7 /\
  (if N.ltb (u16_at 6 b) 32768
   then u16_at 6 b <= 8191
   else u16_at 6 b mod 16384 <= 511 /\ u16_at 2 b <> 65535 /\ u16_at 4 b <> 65535).
