(** Model of the FlexCAN driver in examples/s32k146_node/src/flexcan: identifiers, frames, headers of
    message buffers, and sending through message buffer 8. *)
From Verif Require Import Base.

(** ** Identifiers: flexcan/id.rs *)
(** id.rs:4-8 *)
Definition EXTENDED_ID_FLAG : N := 0x80000000.
Definition EXTENDED_ID_MASK : N := 0x1fffffff.
Definition STANDARD_ID_MASK : N := 0x7ff.
(** id.rs:20-22 [Id::standard] *)
Definition id_standard (bits : N) : N := N.land bits STANDARD_ID_MASK.
(** id.rs:26-28 [Id::extended] *)
Definition id_extended (bits : N) : N := N.lor EXTENDED_ID_FLAG (N.land bits EXTENDED_ID_MASK).
(** id.rs:31-33 [Id::is_extended] *)
Definition id_is_extended (id : N) : bool := negb (N.land id EXTENDED_ID_FLAG =? 0).
(** id.rs:35-37 [Id::bits] *)
Definition id_bits (id : N) : N := N.land id EXTENDED_ID_MASK.

(** ** Frames: flexcan/frame.rs.  A [Dlc] is its number, 0 to 15. *)
(** frame.rs:32-51 [Dlc::length] *)
Definition dlc_length (dlc : N) : nat :=
  match dlc with
  | 0 => 0%nat | 1 => 1%nat | 2 => 2%nat | 3 => 3%nat | 4 => 4%nat | 5 => 5%nat | 6 => 6%nat | 7 => 7%nat
  | 8 => 8%nat | 9 => 12%nat | 10 => 16%nat | 11 => 20%nat | 12 => 24%nat | 13 => 32%nat | 14 => 48%nat | _ => 64%nat
  end.
(** frame.rs:52-73 [Dlc::from_length] *)
Definition dlc_from_length (length : nat) : option N :=
  match length with
  | 0%nat => Some 0 | 1%nat => Some 1 | 2%nat => Some 2 | 3%nat => Some 3 | 4%nat => Some 4
  | 5%nat => Some 5 | 6%nat => Some 6 | 7%nat => Some 7 | 8%nat => Some 8 | 12%nat => Some 9
  | 16%nat => Some 10 | 20%nat => Some 11 | 24%nat => Some 12 | 32%nat => Some 13
  | 48%nat => Some 14 | 64%nat => Some 15 | _ => None
  end.
(** frame.rs:94-115 [Dlc::from_u8]; [Dlc::as_u8] (74-93) is the number itself *)
Definition dlc_from_u8 (dlc : N) : option N := if dlc <? 16 then Some dlc else None.
(** frame.rs:120-125 *)
Record frame := Frame { fr_id : N; fr_dlc : N; fr_remote : bool; fr_data : list N }.
(** frame.rs:130-140 [Frame::new]; [copy_data] has 64 bytes *)
Definition frame_new (id : N) (data : list N) : option frame :=
  match dlc_from_length (length data) with
  | None => None
  | Some dlc => Some (Frame id dlc false (data ++ repeat 0 (64 - length data)))
  end.
(** frame.rs:141-149 [Frame::new_remote] *)
Definition frame_new_remote (id dlc : N) : option frame :=
  match dlc_from_u8 dlc with None => None | Some dlc => Some (Frame id dlc true (repeat 0 64)) end.
(** frame.rs:162-164 [Frame::data] *)
Definition frame_data (f : frame) : list N := firstn (dlc_length (fr_dlc f)) (fr_data f).

(** ** Headers of message buffers: flexcan/buffer/header.rs *)
(** header.rs:6-10 *)
Definition CODE_TX_INACTIVE : N := 8.
Definition CODE_TX_ABORT : N := 9.
Definition CODE_TX_DATA : N := 12.
(** header.rs:13-30 *)
Record header := Header {
  hd_timestamp : N; hd_dlc : N; hd_rtr : bool; hd_ide : bool; hd_srr : bool; hd_code : N;
  hd_esi : bool; hd_brs : bool; hd_edl : bool; hd_id : N; hd_priority : N }.
(** One bit of a word: [((word >> n) & 1) == 1] *)
Definition flag (word n : N) : bool := N.land (N.shiftr word n) 1 =? 1.
(** header.rs:40-62 [Header::from_bits] *)
Definition from_bits (control_status id : N) : header :=
  let ide := flag control_status 21 in
  Header (control_status mod 65536) (N.land (N.shiftr control_status 16) 15) (flag control_status 20) ide
    (flag control_status 22) (N.land (N.shiftr control_status 24) 15)
    (flag control_status 29) (flag control_status 30) (flag control_status 31)
    (if ide then N.land id EXTENDED_ID_MASK else N.land (N.shiftr id 18) STANDARD_ID_MASK)
    (N.land (N.shiftr id 29) 7).
(** header.rs:65-83 [Header::as_bits] *)
Definition as_bits (h : header) : N * N :=
  (N.lor (N.lor (N.lor (N.lor (N.lor (N.lor (N.lor (N.lor
     (hd_timestamp h)
     (N.shiftl (N.land (hd_dlc h) 15) 16))
     (N.shiftl (N.b2n (hd_rtr h)) 20))
     (N.shiftl (N.b2n (hd_ide h)) 21))
     (N.shiftl (N.b2n (hd_srr h)) 22))
     (N.shiftl (N.land (hd_code h) 15) 24))
     (N.shiftl (N.b2n (hd_esi h)) 29))
     (N.shiftl (N.b2n (hd_brs h)) 30))
     (N.shiftl (N.b2n (hd_edl h)) 31),
   N.lor (if hd_ide h then N.land (hd_id h) EXTENDED_ID_MASK else N.shiftl (N.land (hd_id h) STANDARD_ID_MASK) 18)
     (N.shiftl (N.land (hd_priority h) 7) 29)).
(** header.rs:104-117 [Header::mailbox_arbitration_value]; a shift to the left keeps 32 bits *)
Definition mailbox_arbitration_value (h : header) : N :=
  if hd_ide h then
    N.lor (N.lor (N.lor (N.lor
      (N.shiftl (N.shiftr (hd_id h) 18) 21 mod 2 ^ 32)
      (N.shiftl (N.b2n (hd_srr h)) 20))
      (N.shiftl (N.b2n (hd_ide h)) 19))
      (N.shiftl (N.land (hd_id h) 0x3ffff) 1))
      (N.b2n (hd_rtr h))
  else N.lor (N.shiftl (hd_id h) 21 mod 2 ^ 32) (N.shiftl (N.b2n (hd_rtr h)) 20).
(** header.rs:98-102 [Header::compare_transmit_priority] *)
Definition compare_transmit_priority (self other : header) : comparison :=
  CompOpp (N.compare (mailbox_arbitration_value self) (mailbox_arbitration_value other)).

(** ** The data of a message buffer: flexcan/buffer.rs *)
(** buffer.rs:73-75 [shift_index] *)
Definition shift_index (index : nat) : nat := N.to_nat (N.lxor (N.of_nat index) 3).
(** [buffer[i] = x] *)
Fixpoint upd {A} (l : list A) (i : nat) (x : A) : list A :=
  match l, i with
  | [], _ => []
  | _ :: r, O => x :: r
  | y :: r, S k => y :: upd r k x
  end.
(** buffer.rs:52-62 [Message::write_data], the loop from byte [i] *)
Fixpoint write_data_from (i : nat) (data : list N) (buffer : list N) : list N :=
  match data with
  | [] => buffer
  | b :: data => write_data_from (S i) data (upd buffer (shift_index i) b)
  end.
(** buffer.rs:52-62 [Message::write_data]; the capacity [N] is the length of the buffer *)
Definition write_data (data buffer : list N) : list N :=
  write_data_from 0 (firstn (Nat.min (length data) (length buffer)) data) buffer.
(** buffer.rs:63-69 [Message::read_data] into [count] bytes that are zero before *)
Definition read_data (count : nat) (buffer : list N) : list N :=
  map (fun i => if (i <? Nat.min count (length buffer))%nat then nth (shift_index i) buffer 0 else 0) (seq 0 count).

(** ** The controller, as the driver sees it: message buffer 8 and its bit of IFLAG1.
    This is not code of the repository.  The controller starts to transmit an active buffer at any time: it
    copies the buffer.  It ends the transmission at any time, successfully or not, and handles a request to
    abort at any time when it is not transmitting.  Either sets the flag. *)
Record message := Message { m_cs : N; m_id : N; m_data : list N }.
Record controller := Controller {
  c_buffer : message;          (* what is in the memory of the buffer *)
  c_flag : bool;               (* bit 8 of IFLAG1 *)
  c_flight : option message;   (* the frame that is being transmitted *)
  c_abort : bool;              (* the driver has asked to abort *)
  c_sent : list message        (* what was transmitted *) }.
Inductive action := Start | Success | Failure | Settle.
(** The code of a control and status word *)
Definition code_of (cs : N) : N := cs / 2 ^ 24 mod 16.
Definition set_code (cs code : N) : N := cs - code_of cs * 2 ^ 24 + code * 2 ^ 24.
Definition act (c : controller) (a : action) : controller :=
  match a, c_flight c with
  | Start, None => if code_of (m_cs (c_buffer c)) =? CODE_TX_DATA
                   then Controller (c_buffer c) (c_flag c) (Some (c_buffer c)) (c_abort c) (c_sent c) else c
  | Success, Some m =>
      let b := c_buffer c in
      Controller (Message (set_code (m_cs b) CODE_TX_INACTIVE) (m_id b) (m_data b)) true None false (c_sent c ++ [m])
  | Failure, Some _ => Controller (c_buffer c) (c_flag c) None (c_abort c) (c_sent c)
  | Settle, None => if c_abort c then Controller (c_buffer c) true None false (c_sent c) else c
  | _, _ => c
  end.
(** A schedule: what the controller does before each access of the driver *)
Definition schedule := list (list action).
Definition state := (controller * schedule)%type.
Definition tick (s : state) : state :=
  match snd s with
  | [] => s
  | batch :: rest => (fold_left act batch (fst s), rest)
  end.

(** What a call does: it returns, panics, or goes on waiting *)
Inductive ended (A : Type) := Returns (a : A) | Panics | Waits.
Arguments Returns {A} a.
Arguments Panics {A}.
Arguments Waits {A}.

(** Accesses to the registers *)
Definition read_flag (s : state) : bool * state := let s := tick s in (c_flag (fst s), s).
(** Writing one to a bit of IFLAG1 clears it *)
Definition clear_flag (s : state) : state :=
  let s := tick s in let c := fst s in
  (Controller (c_buffer c) false (c_flight c) (c_abort c) (c_sent c), snd s).
(** buffer.rs:34-38 [Message::read_header]: control and status first, then the identifier *)
Definition read_header (s : state) : header * state :=
  let s := tick s in let cs := m_cs (c_buffer (fst s)) in
  let s := tick s in let id := m_id (c_buffer (fst s)) in
  (from_bits cs id, s).
Definition write_id (id : N) (s : state) : state :=
  let s := tick s in let c := fst s in
  (Controller (Message (m_cs (c_buffer c)) id (m_data (c_buffer c))) (c_flag c) (c_flight c) (c_abort c) (c_sent c), snd s).
Definition write_cs (cs : N) (s : state) : state :=
  let s := tick s in let c := fst s in
  (Controller (Message cs (m_id (c_buffer c)) (m_data (c_buffer c))) (c_flag c) (c_flight c)
     (code_of cs =? CODE_TX_ABORT) (c_sent c), snd s).
(** buffer.rs:45-51 [Message::write_header]: the identifier first, then control and status *)
Definition write_header (h : header) (s : state) : state :=
  write_cs (fst (as_bits h)) (write_id (snd (as_bits h)) s).
(** buffer.rs:52-69; all bytes in one access, as the controller does not write data of this buffer and
    reads it only when it starts to transmit *)
Definition store_data (data : list N) (s : state) : state :=
  let s := tick s in let c := fst s in
  (Controller (Message (m_cs (c_buffer c)) (m_id (c_buffer c)) (write_data data (m_data (c_buffer c))))
     (c_flag c) (c_flight c) (c_abort c) (c_sent c), snd s).
Definition load_data (count : nat) (s : state) : list N * state :=
  let s := tick s in (read_data count (m_data (c_buffer (fst s))), s).

(** flexcan/mod.rs:281 [while (iflag1 & (1 << 8)) != 0 {}]; [fuel] bounds the turns *)
Fixpoint wait_for_outcome (fuel : nat) (s : state) : option state :=
  match fuel with
  | O => None
  | S fuel => let (set, s) := read_flag s in if set then wait_for_outcome fuel s else Some s
  end.
(** mod.rs:241-253 *)
Definition header_of (f : frame) : header :=
  Header 0 (fr_dlc f) (fr_remote f) (id_is_extended (fr_id f)) (id_is_extended (fr_id f)) CODE_TX_DATA
    false false false (id_bits (fr_id f)) 0.
(** header.rs:12 [Header::default], with the code that asks to abort (mod.rs:275-278) *)
Definition abort_header : header := Header 0 0 false false false CODE_TX_ABORT false false false 0 0.
(** mod.rs:283-299: the frame that was in the buffer *)
Definition removed_frame (h : header) (s : state) : ended frame * state :=
  let id := if hd_ide h then id_extended (hd_id h) else id_standard (hd_id h mod 65536) in
  if hd_rtr h then
    (match frame_new_remote id (hd_dlc h) with Some f => Returns f | None => Panics end, s)
  else
    let count := N.to_nat (hd_dlc h) in
    if (8 <? count)%nat then (Panics, s)
    else let (data, s) := load_data count s in
         (match frame_new id data with Some f => Returns f | None => Panics end, s).
(** mod.rs:315-316 *)
Definition store (f : frame) (s : state) : state := write_header (header_of f) (store_data (frame_data f) s).
(** What [FlexCan::send] returns: it has to wait, or the frame is in the buffer, with the frame that it replaced *)
Inductive sent := WouldBlock | Accepted (replaced : option frame).
(** mod.rs:240-317 [FlexCan::send] *)
Definition send (fuel : nat) (f : frame) (s : state) : ended sent * state :=
  let s := clear_flag s in
  let (h, s) := read_header s in
  if hd_code h =? CODE_TX_DATA then
    match compare_transmit_priority h (header_of f) with
    | Lt =>
        let s := write_header abort_header s in
        match wait_for_outcome fuel s with
        | None => (Waits, s)
        | Some s =>
            let (outcome, s) := read_header s in
            let (removed, s) :=
              if hd_code outcome =? CODE_TX_ABORT then
                let (r, s) := removed_frame h s in
                (match r with Returns f => Returns (Some f) | Panics => Panics | Waits => Waits end, s)
              else (Returns None, s) in
            match removed with
            | Returns r => (Returns (Accepted r), store f (clear_flag s))
            | Panics => (Panics, s)
            | Waits => (Waits, s)
            end
        end
    | _ => (Returns WouldBlock, s)
    end
  else (Returns (Accepted None), store f s).

(** mod.rs:110-178, 354-373: after [init], the memory of the buffer is zero *)
Definition fresh : controller := Controller (Message 0 0 (repeat 0 8)) false None false [].
(** A history: calls of [send], each with what the controller does meanwhile, until one does not return *)
Fixpoint sends (fuel : nat) (c : controller) (calls : list (frame * schedule)) : list (ended sent) * controller :=
  match calls with
  | [] => ([], c)
  | (f, s) :: calls =>
      match send fuel f (c, s) with
      | (Returns r, (c, _)) => let (rs, c) := sends fuel c calls in (Returns r :: rs, c)
      | (e, (c, _)) => ([e], c)
      end
  end.
