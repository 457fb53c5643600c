(** Specification of Cyphal/CAN identifiers, tail bytes and frames, from the Cyphal specification (section 4.2.1):
    fields are given by their bit positions, with plain division and remainder. *)
From Verif Require Import Base CoreModel.

(** The bits [k, k + w) of an identifier. *)
Definition bits_at (id k w : N) : N := (id / 2 ^ k) mod 2 ^ w.

(** The values the Rust types of CAN headers allow. *)
Definition can_header_ok (h : header) : Prop :=
  h_prio h <= 7 /\ h_tid h <= 31 /\ h_ts h < 2 ^ 32 /\
  match h with
  | HMsg m => mh_subject m <= 8191 /\ (forall s, mh_source m = Some s -> s <= 127)
  | HReq s | HResp s => sh_service s <= 511 /\ sh_source s <= 127 /\ sh_dest s <= 127
  end.

(** What an identifier says: [id_means id h] holds when [id] is a valid identifier of a transfer with header [h]
    (the time stamp and the transfer ID of [h] are not part of an identifier). *)
Definition id_means (id : N) (h : header) : Prop :=
  bits_at id 23 1 = 0 /\ bits_at id 26 3 = h_prio h /\
  match h with
  | HMsg m =>
      bits_at id 25 1 = 0 /\ bits_at id 7 1 = 0 /\ bits_at id 8 13 = mh_subject m /\
      match mh_source m with
      | Some s => bits_at id 24 1 = 0 /\ bits_at id 0 7 = s
      | None => bits_at id 24 1 = 1
      end
  | HReq s =>
      bits_at id 25 1 = 1 /\ bits_at id 24 1 = 1 /\ bits_at id 14 9 = sh_service s /\ bits_at id 7 7 = sh_dest s /\
      bits_at id 0 7 = sh_source s
  | HResp s =>
      bits_at id 25 1 = 1 /\ bits_at id 24 1 = 0 /\ bits_at id 14 9 = sh_service s /\ bits_at id 7 7 = sh_dest s /\
      bits_at id 0 7 = sh_source s
  end.
