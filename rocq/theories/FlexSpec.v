(** What sending through one message buffer of a CAN controller should do. *)
From Verif Require Import Base FlexModel.

(** ** CAN frames and the bus *)
Record can_frame := CanFrame { w_extended : bool; w_ident : N; w_remote : bool; w_dlc : N; w_bytes : list N }.

(** The bits of [v], the most significant of [n] first *)
Definition msb_first (n : nat) (v : N) : list bool := map (fun i => N.testbit v (N.of_nat (n - 1 - i))) (seq 0 n).
(** The bits of a frame that take part in arbitration, in the order on the bus (ISO 11898-1): an extended frame has
    the 11 upper bits of the identifier, two recessive bits (SRR and IDE), the other 18 bits, and RTR; a standard
    frame has the identifier, RTR, and a dominant bit (IDE) *)
Definition arbitration_field (w : can_frame) : list bool :=
  if w_extended w
  then msb_first 11 (w_ident w / 2 ^ 18) ++ [true; true] ++ msb_first 18 (w_ident w mod 2 ^ 18) ++ [w_remote w]
  else msb_first 11 (w_ident w) ++ [w_remote w; false].
(** A dominant bit is 0, and it wins: [a] gets the bus if both are sent at once *)
Definition wins (a b : can_frame) : Prop :=
  exists common ra rb, arbitration_field a = common ++ false :: ra /\ arbitration_field b = common ++ true :: rb.

(** The frame that a message buffer describes (S32K1 reference manual, message buffer structure): word 0 has the data
    length code in bits 16 to 19, RTR in 20 and IDE in 21; word 1 has the identifier in bits 0 to 28, or in bits 18 to 28
    if it is standard; the first byte of data is the most significant of the third word *)
Definition carried (m : message) : can_frame :=
  let extended := N.testbit (m_cs m) 21 in
  let remote := N.testbit (m_cs m) 20 in
  let dlc := m_cs m / 2 ^ 16 mod 16 in
  CanFrame extended (if extended then m_id m mod 2 ^ 29 else m_id m / 2 ^ 18 mod 2 ^ 11) remote dlc
    (if remote then []
     else map (fun i => nth (4 * (i / 4) + (3 - i mod 4)) (m_data m) 0) (seq 0 (Nat.min 8 (N.to_nat dlc)))).

(** ** Frames, as they are made with the API: with up to eight bytes of data, or remote *)
Inductive made : frame -> can_frame -> Prop :=
  | MadeData (extended : bool) (bits : N) (data : list N) (f : frame) :
      frame_new (if extended then id_extended bits else id_standard bits) data = Some f ->
      (length data <= 8)%nat ->
      made f (CanFrame extended (bits mod 2 ^ (if extended then 29 else 11)) false (N.of_nat (length data)) data)
  | MadeRemote (extended : bool) (bits dlc : N) (f : frame) :
      frame_new_remote (if extended then id_extended bits else id_standard bits) dlc = Some f ->
      made f (CanFrame extended (bits mod 2 ^ (if extended then 29 else 11)) true dlc []).

(** ** Histories *)
(** What calls of [send] with the frames [ws] may return, when [last] is the frame that was accepted last: a frame is
    refused only if it does not win against that one; a frame that is given back is that one, and lost *)
Fixpoint allowed (last : option can_frame) (ws : list can_frame) (rs : list (ended sent)) : Prop :=
  match ws, rs with
  | [], [] => True
  | w :: ws, r :: rs =>
      match r with
      | Returns WouldBlock => (exists l, last = Some l /\ ~ wins w l) /\ allowed last ws rs
      | Returns (Accepted None) => allowed (Some w) ws rs
      | Returns (Accepted (Some g)) => (exists l, last = Some l /\ wins w l /\ made g l) /\ allowed (Some w) ws rs
      | Waits => (exists l, last = Some l /\ wins w l) /\ rs = []
      | Panics => False
      end
  | _, _ => False
  end.
(** The frames that were accepted *)
Fixpoint accepted (ws : list can_frame) (rs : list (ended sent)) : list can_frame :=
  match ws, rs with
  | w :: ws, Returns (Accepted _) :: rs => w :: accepted ws rs
  | _ :: ws, _ :: rs => accepted ws rs
  | _, _ => []
  end.
(** No frame wins against one before it *)
Definition in_turn (ws : list can_frame) : Prop := ForallOrdPairs (fun earlier later => ~ wins later earlier) ws.
(** What was transmitted *)
Definition transmitted (c : controller) : list can_frame := map carried (c_sent c).
