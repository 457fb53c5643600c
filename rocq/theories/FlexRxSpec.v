(** What receiving, the memory of message buffers, and the bit timing of a CAN controller should be. *)
From Verif Require Import Base FlexModel FlexSpec FlexRxModel.

(** ** Receiving is a queue: what calls answer, beginning with the frames [waiting] and ending with the frames [left] *)
Inductive queue : list can_frame -> list event -> list (ended (option frame)) -> list can_frame -> Prop :=
  | QEnd waiting : queue waiting [] [] waiting
  | QArrives waiting m es rs left : queue (waiting ++ [carried m]) es rs left -> queue waiting (Arrives m :: es) rs left
  | QNone es rs left : queue [] es rs left -> queue [] (Call :: es) (Returns None :: rs) left
  | QSome w waiting f es rs left :
      made f w -> queue waiting es rs left -> queue (w :: waiting) (Call :: es) (Returns (Some f) :: rs) left.
(** The same for the driver that the node uses, which ignores frames with standard identifiers *)
Inductive node_queue : list can_frame -> list event -> list (ended (option (N * list N))) -> list can_frame -> Prop :=
  | NEnd waiting : node_queue waiting [] [] waiting
  | NArrives waiting m es rs left : node_queue (waiting ++ [carried m]) es rs left -> node_queue waiting (Arrives m :: es) rs left
  | NNone es rs left : node_queue [] es rs left -> node_queue [] (Call :: es) (Returns None :: rs) left
  | NIgnored w waiting es rs left :
      w_extended w = false -> node_queue waiting es rs left -> node_queue (w :: waiting) (Call :: es) (Returns None :: rs) left
  | NSome w waiting es rs left :
      w_extended w = true -> w_remote w = false ->
      node_queue waiting es rs left -> node_queue (w :: waiting) (Call :: es) (Returns (Some (w_ident w, w_bytes w)) :: rs) left.
(** What arrived, and what calls returned *)
Fixpoint arrived (es : list event) : list can_frame :=
  match es with [] => [] | Arrives m :: es => carried m :: arrived es | Call :: es => arrived es end.
Fixpoint returned {A} (rs : list (ended (option A))) : list A :=
  match rs with [] => [] | Returns (Some f) :: rs => f :: returned rs | _ :: rs => returned rs end.
(** A frame of classic CAN with a data length code that is the number of its bytes.  Codes from 9 to 15 are allowed on the bus and
    mean 8 bytes (ISO 11898-1). *)
Definition plain (w : can_frame) : Prop := w_dlc w <= 8.

(** ** Memory: ranges of addresses *)
Definition apart (a b : nat * nat) : Prop := (snd a <= fst b \/ snd b <= fst a)%nat.
Definition inside (a b : nat * nat) : Prop := (fst b <= fst a /\ snd a <= snd b)%nat.
(** The memory for message buffers, and one of its blocks of 512 bytes, begin at 0x80 *)
Definition whole (bytes : nat) : nat * nat := (128, 128 + bytes)%nat.
Definition block_range (n : nat) : nat * nat := (128 + 512 * n, 128 + 512 * n + 512)%nat.
(** The number of data bytes of a message *)
Definition data_bytes (b : buffer_size) : nat := match b with Bytes8 => 8 | Bytes16 => 16 | Bytes32 => 32 | Bytes64 => 64 end.

(** ** Bit timing (S32K1 reference manual, CTRL1): each field is one less than the number that it stands for *)
Definition field (word offset width : N) : N := word / 2 ^ offset mod 2 ^ width.
Definition prescaler (ctrl1 : N) : N := field ctrl1 24 8 + 1.
Definition jump (ctrl1 : N) : N := field ctrl1 22 2 + 1.
Definition phase_1 (ctrl1 : N) : N := field ctrl1 19 3 + 1.
Definition phase_2 (ctrl1 : N) : N := field ctrl1 16 3 + 1.
Definition propagation (ctrl1 : N) : N := field ctrl1 0 3 + 1.
(** Clock cycles of one bit: a quantum to synchronize, and the three segments *)
Definition bit_cycles (ctrl1 : N) : N := prescaler ctrl1 * (1 + propagation ctrl1 + phase_1 ctrl1 + phase_2 ctrl1).
(** The numbers that the names of lengths stand for *)
Definition jump_number (w : jump_width) : N := match w with Width1 => 1 | Width2 => 2 | Width3 => 3 | Width4 => 4 end.
Definition segment_number (s : segment) : N :=
  match s with Length1 => 1 | Length2 => 2 | Length3 => 3 | Length4 => 4 | Length5 => 5 | Length6 => 6 | Length7 => 7 | Length8 => 8 end.
Definition segment2_number (s : segment2) : N := match s with Two => 2 | Three => 3 | Four => 4 | Five => 5 | Six => 6 | Seven => 7 | Eight => 8 end.
