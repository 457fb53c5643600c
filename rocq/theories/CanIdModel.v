(** Model of the CAN identifier and tail byte: canadensis_can/src/{tx,rx,driver,types}.rs. *)
From Verif Require Import Base CoreModel FilterModel.

(** types.rs [CanNodeId::from_truncating], [is_diagnostic_reserved] (lines 45-54) *)
Definition node_truncate (v : N) : N := N.land v 127.
Definition diagnostic_reserved (id : N) : bool := N.leb (127 - 1) id.

(** tx.rs:285-287, the [while] loop; it runs at most twice, [fuel] bounds it *)
Fixpoint pseudo_loop (fuel : nat) (id : N) : N :=
  match fuel with
  | O => id
  | S k => if diagnostic_reserved id then pseudo_loop k (node_truncate (id - 1)) else id
  end.
(** tx.rs:279-289 [make_pseudo_id] *)
Definition make_pseudo_id (payload : list N) : N :=
  pseudo_loop 3 (node_truncate (fold_left N.lxor payload 0x55)).

(** tx.rs:269-276 [encode_common_service_fields] *)
Definition encode_service (s : svc_header) : N :=
  N.lor (N.lor (N.shiftl (sh_service s) 14) (N.shiftl (sh_dest s) 7)) (N.shiftl 1 25).

(** tx.rs:231-265 [make_can_id] *)
Definition make_can_id (h : header) (payload : list N) : res N :=
  let bits := N.shiftl (h_prio h) 26 in
  let src := match h_source h with Some s => s | None => make_pseudo_id payload end in
  let bits := N.lor bits src in
  let bits :=
    match h with
    | HMsg m =>
        let bits := N.lor bits (N.shiftl (mh_subject m) 8) in
        let bits := N.lor bits (N.lor (N.shiftl 1 21) (N.shiftl 1 22)) in
        match mh_source m with None => N.lor bits (N.shiftl 1 24) | Some _ => bits end
    | HReq s => N.lor (N.lor bits (encode_service s)) (N.shiftl 1 24)
    | HResp s => N.lor bits (encode_service s)
    end in
  (* data.rs:34-41 [CanId::try_from] *)
  if N.eqb (N.land bits 0xe0000000) 0 then Ok bits else Panic.

(** rx.rs:514-535 [GetBits] *)
Definition bit_set (n k : N) : bool := N.eqb (N.land (N.shiftr n k) 1) 1.
Definition get_u8 (n k : N) : N := w8 (N.shiftr n k).
Definition get_u16 (n k : N) : N := w16 (N.shiftr n k).

(** [try_from(..).expect(..)] of an identifier type with the given largest value *)
Definition expect_le (v max : N) : res N := if N.leb v max then Ok v else Panic.

(** rx.rs:448-504 [parse_can_id]: [Ok None] is an error result *)
Definition parse_can_id (bits ts tid : N) : res (option header) :=
  if bit_set bits 23 then Ok None
  else
    match expect_le (get_u8 bits 26) 7, expect_le (N.land (get_u8 bits 0) 0x7f) 127 with
    | Ok prio, Ok src =>
        if bit_set bits 25 then
          match expect_le (N.land (get_u16 bits 14) 0x1ff) 511, expect_le (N.land (get_u8 bits 7) 0x7f) 127 with
          | Ok service, Ok dest =>
              let s := SvcH ts tid prio service src dest in
              Ok (Some (if bit_set bits 24 then HReq s else HResp s))
          | _, _ => Panic
          end
        else if bit_set bits 7 then Ok None
        else
          let source := if bit_set bits 24 then None else Some src in
          match expect_le (N.land (get_u16 bits 8) 0x1fff) 8191 with
          | Ok subject => Ok (Some (HMsg (MsgH ts tid prio subject source)))
          | Panic => Panic
          end
    | _, _ => Panic
    end.

(** rx.rs:619-635 [TailByte], [TailByte::parse] *)
Record tail := Tail { tl_start : bool; tl_end : bool; tl_toggle : bool; tl_tid : N }.
Definition parse_tail (b : N) : tail := Tail (bit_set b 7) (bit_set b 6) (bit_set b 5) (N.land b 0x1f).

(** tx/breakdown.rs:88-90 [make_tail_byte] *)
Definition make_tail (start stop toggle : bool) (tid : N) : N :=
  N.lor (N.lor (N.lor (N.shiftl (N.b2n start) 7) (N.shiftl (N.b2n stop) 6)) (N.shiftl (N.b2n toggle) 5)) tid.

(** types.rs [CanTransferId::increment] *)
Definition tid_incr (t : N) : N := if N.eqb t 31 then 0 else t + 1.

(** driver.rs:121-125 [subject_filter] *)
Definition subject_filter (subject : N) : filter_t :=
  filter_new 0x029fff80 (N.lor 0x00600000 (N.shiftl subject 8)).
(** driver.rs:135-140 [request_filter] *)
Definition request_filter (service dest : N) : filter_t :=
  filter_new 0x03ffff80
    (N.lor 0x03000000 (N.lor (N.shiftl service 14) (N.shiftl dest 7))).
(** driver.rs:150-156 [response_filter] *)
Definition response_filter (service dest : N) : filter_t :=
  filter_new 0x03ffff80
    (N.lor 0x02000000 (N.lor (N.shiftl service 14) (N.shiftl dest 7))).
(** driver.rs:102-112 [make_filter] *)
Definition make_filter (p : port) (local : option N) : option filter_t :=
  match p with
  | PMsg subject => Some (subject_filter subject)
  | PReq service => option_map (request_filter service) local
  | PResp service => option_map (response_filter service) local
  end.
(** driver.rs:89-94: the filters of a list of subscriptions; [alloc] says for each push whether memory is found,
    [None] is the out-of-memory error *)
Fixpoint make_filters (ps : list port) (local : option N) (alloc : nat -> bool) (n : nat) : option (list filter_t) :=
  match ps with
  | [] => Some []
  | p :: r =>
      match make_filter p local with
      | None => make_filters r local alloc n
      | Some f =>
          if alloc n then option_map (cons f) (make_filters r local alloc (S n)) else None
      end
  end.
(** driver.rs:79-98 [optimize_filters]: the filters passed to the callback *)
Definition optimize_filters (local : option N) (ps : list port) (max : nat) (alloc : nat -> bool) : res (option (list filter_t)) :=
  match make_filters ps local alloc O with
  | None => Ok None
  | Some fs => match optimize fs max with Ok l => Ok (Some l) | Panic => Panic end
  end.
