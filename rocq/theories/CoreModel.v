(** Model of the transport-independent data types: canadensis_core/src/{lib,transfer}.rs. *)
From Verif Require Import Base.

(** transfer.rs:12-25 [MessageHeader].  Identifiers, priority and time are numbers; the field ranges the Rust types
    enforce are stated by [header_ok] predicates of the transports. *)
Record msg_header := MsgH {
  mh_ts : N; mh_tid : N; mh_prio : N; mh_subject : N; mh_source : option N }.

(** transfer.rs:74-90 [ServiceHeader] *)
Record svc_header := SvcH {
  sh_ts : N; sh_tid : N; sh_prio : N; sh_service : N; sh_source : N; sh_dest : N }.

(** transfer.rs:136-145 [Header] *)
Inductive header :=
| HMsg (m : msg_header)
| HReq (s : svc_header)
| HResp (s : svc_header).

(** transfer.rs [Transfer] *)
Record transfer := Transfer { t_header : header; t_loopback : bool; t_payload : list N }.

(** transfer.rs, the accessors [timestamp], [transfer_id], [priority], [source] *)
Definition h_ts (h : header) : N :=
  match h with HMsg m => mh_ts m | HReq s => sh_ts s | HResp s => sh_ts s end.
Definition h_tid (h : header) : N :=
  match h with HMsg m => mh_tid m | HReq s => sh_tid s | HResp s => sh_tid s end.
Definition h_prio (h : header) : N :=
  match h with HMsg m => mh_prio m | HReq s => sh_prio s | HResp s => sh_prio s end.
Definition h_source (h : header) : option N :=
  match h with HMsg m => mh_source m | HReq s => Some (sh_source s) | HResp s => Some (sh_source s) end.

(** transfer.rs [Header::set_timestamp] *)
Definition h_set_ts (h : header) (t : N) : header :=
  match h with
  | HMsg m => HMsg (MsgH t (mh_tid m) (mh_prio m) (mh_subject m) (mh_source m))
  | HReq s => HReq (SvcH t (sh_tid s) (sh_prio s) (sh_service s) (sh_source s) (sh_dest s))
  | HResp s => HResp (SvcH t (sh_tid s) (sh_prio s) (sh_service s) (sh_source s) (sh_dest s))
  end.

(** The three kinds of ports a node can subscribe to (transfer.rs [TransferKind] + lib.rs [SubjectId]/[ServiceId]) *)
Inductive port := PMsg (subject : N) | PReq (service : N) | PResp (service : N).

Definition port_eqb (a b : port) : bool :=
  match a, b with
  | PMsg x, PMsg y => N.eqb x y
  | PReq x, PReq y => N.eqb x y
  | PResp x, PResp y => N.eqb x y
  | _, _ => false
  end.

(** the port a transfer is sent to *)
Definition h_port (h : header) : port :=
  match h with HMsg m => PMsg (mh_subject m) | HReq s => PReq (sh_service s) | HResp s => PResp (sh_service s) end.

(** the node a service transfer is addressed to *)
Definition h_dest (h : header) : option N :=
  match h with HMsg _ => None | HReq s => Some (sh_dest s) | HResp s => Some (sh_dest s) end.

Lemma port_eqb_spec a b : reflect (a = b) (port_eqb a b).
Proof.
  destruct a, b; cbn; try (constructor; congruence);
    destruct (N.eqb_spec subject subject0) || destruct (N.eqb_spec service service0);
    constructor; congruence.
Qed.
