(** Model of canadensis_header/src/lib.rs. *)
From Verif Require Import Base CrcModel CoreModel.

(** lib.rs:25-44 [RawHeader] *)
Record raw := Raw {
  r_version : N; r_prio : N; r_src : N; r_dst : N; r_spec : N; r_tid : N; r_fie : N; r_data : N; r_crc : N }.

(** lib.rs:17,23-24: the memory layout ([IntoBytes]/[FromBytes]); all fields little-endian except the checksum *)
Definition raw_to_bytes (r : raw) : list N :=
  le_bytes 1 (r_version r) ++ le_bytes 1 (r_prio r) ++ le_bytes 2 (r_src r) ++ le_bytes 2 (r_dst r) ++
  le_bytes 2 (r_spec r) ++ le_bytes 8 (r_tid r) ++ le_bytes 4 (r_fie r) ++ le_bytes 2 (r_data r) ++
  be_bytes 2 (r_crc r).
Definition slice (i n : nat) (l : list N) : list N := firstn n (skipn i l).
Definition raw_of_bytes (b : list N) : raw :=
  Raw (from_le (slice 0 1 b)) (from_le (slice 1 1 b)) (from_le (slice 2 2 b)) (from_le (slice 4 2 b))
      (from_le (slice 6 2 b)) (from_le (slice 8 8 b)) (from_le (slice 16 4 b)) (from_le (slice 20 2 b))
      (from_le (rev (slice 22 2 b))).
Definition SIZE : nat := 24.

(** lib.rs:84-94 *)
Definition VERSION : N := 1.
Definition LAST_FRAME : N := 0x80000000.
Definition SPEC_SERVICE : N := 0x8000.
Definition SPEC_REQUEST : N := 0x4000.
Definition SUBJECT_MASK : N := 0x7fff.
Definition SERVICE_MASK : N := 0x3fff.
(** lib.rs:360 *)
Definition NODE_NONE : N := 0xffff.

(** lib.rs:67-69, 71-73, 75-80 *)
Definition is_last_frame (r : raw) : bool := negb (N.eqb (N.land (r_fie r) LAST_FRAME) 0).
Definition frame_index (r : raw) : N := N.land (r_fie r) 0x7fffffff.
Definition checksum_valid (r : raw) : bool := N.eqb (crc16 (raw_to_bytes r)) 0.

(** lib.rs:311-326 [DataSpecifier] *)
Inductive dspec :=
| DSubject (from : option N) (subject : N)
| DRequest (from to service : N)
| DResponse (from to service : N).

(** lib.rs:102-115 [Header] *)
Record fheader := FH {
  fh_prio : N; fh_spec : dspec; fh_tid : N; fh_index : N; fh_last : bool; fh_data : N }.

(** lib.rs:345-351 [check_node_id] ([NodeId16::try_from], 362-371, accepts everything else) *)
Definition check_node_id (id : N) : option N := if N.eqb id NODE_NONE then None else Some id.

(** canadensis_core/src/lib.rs: [Priority], [SubjectId] and [ServiceId] [TryFrom] *)
Definition MAX_PRIO : N := 7.
Definition MAX_SUBJECT : N := 8191.
Definition MAX_SERVICE : N := 511.
Definition try_le (max v : N) : option N := if N.leb v max then Some v else None.

(** lib.rs:117-165 [TryFrom<RawHeader> for Header] *)
Definition header_of_raw (r : raw) : option fheader :=
  if negb (N.eqb (r_version r) VERSION) then None
  else if negb (checksum_valid r) then None
  else match try_le MAX_PRIO (r_prio r) with
  | None => None
  | Some prio =>
      let src := check_node_id (r_src r) in
      let dst := check_node_id (r_dst r) in
      let spec :=
        if N.eqb (N.land (r_spec r) SPEC_SERVICE) SPEC_SERVICE then
          match try_le MAX_SERVICE (N.land (r_spec r) SERVICE_MASK), src, dst with
          | Some service, Some from, Some to =>
              if N.eqb (N.land (r_spec r) SPEC_REQUEST) SPEC_REQUEST
              then Some (DRequest from to service) else Some (DResponse from to service)
          | _, _, _ => None
          end
        else
          match try_le MAX_SUBJECT (N.land (r_spec r) SUBJECT_MASK) with
          | Some subject => Some (DSubject src subject)
          | None => None
          end in
      match spec with
      | None => None
      | Some spec => Some (FH prio spec (r_tid r) (frame_index r) (is_last_frame r) (r_data r))
      end
  end.

(** lib.rs:329-342 [source_node_id], [destination_node_id] with [unwrap_or(NODE_ID_RESERVED...)] *)
Definition spec_source (d : dspec) : N :=
  match d with DSubject None _ => NODE_NONE | DSubject (Some f) _ => f | DRequest f _ _ => f | DResponse f _ _ => f end.
Definition spec_dest (d : dspec) : N :=
  match d with DSubject _ _ => NODE_NONE | DRequest _ t _ => t | DResponse _ t _ => t end.

(** lib.rs:187-197 *)
Definition spec_bits (d : dspec) : N :=
  match d with
  | DSubject _ s => s
  | DRequest _ _ s => N.lor (N.lor SPEC_SERVICE SPEC_REQUEST) s
  | DResponse _ _ s => N.lor SPEC_SERVICE s
  end.

(** lib.rs:167-213 [From<Header> for RawHeader] *)
Definition raw_of_header (h : fheader) : raw :=
  let fie := N.lor (fh_index h) (if fh_last h then LAST_FRAME else 0) in
  let r0 := Raw VERSION (fh_prio h) (spec_source (fh_spec h)) (spec_dest (fh_spec h)) (spec_bits (fh_spec h))
                (fh_tid h) fie (fh_data h) 0 in
  let crc := crc16 (firstn (SIZE - 2) (raw_to_bytes r0)) in
  Raw VERSION (fh_prio h) (spec_source (fh_spec h)) (spec_dest (fh_spec h)) (spec_bits (fh_spec h))
      (fh_tid h) fie (fh_data h) crc.

(** the wire form of a header and its parser *)
Definition header_encode (h : fheader) : list N := raw_to_bytes (raw_of_header h).
Definition header_decode (b : list N) : option fheader := header_of_raw (raw_of_bytes b).

(** lib.rs:219-257 [as_core_header] *)
Definition as_core_header (h : fheader) (ts : N) : header :=
  match fh_spec h with
  | DSubject from subject => HMsg (MsgH ts (fh_tid h) (fh_prio h) subject from)
  | DRequest from to service => HReq (SvcH ts (fh_tid h) (fh_prio h) service from to)
  | DResponse from to service => HResp (SvcH ts (fh_tid h) (fh_prio h) service from to)
  end.

(** lib.rs:260-297 [From<&core Header> for Header] *)
Definition of_core_header (h : header) : fheader :=
  let spec := match h with
    | HMsg m => DSubject (mh_source m) (mh_subject m)
    | HReq s => DRequest (sh_source s) (sh_dest s) (sh_service s)
    | HResp s => DResponse (sh_source s) (sh_dest s) (sh_service s)
    end in
  FH (h_prio h) spec (h_tid h) 0 true 0.
