(** Specification of the CRC of firmware images. *)
From Verif Require Import Base ExprModel PolySpec ImgModel.
Open Scope list_scope.
Open Scope N_scope.

(** A static of [size] bytes with this name is at [address] in memory, and at [offset] in the file: it is in a section that is in the file. *)
Inductive static (o : object) (binary : list N) (name : text) (size : N) : N -> N -> Prop :=
| static_in s i sec start : In s (o_symbols o) -> sym_name s = Some name -> (forall s', In s' (o_symbols o) -> sym_name s' = Some name -> s' = s) ->
    sym_section s = Some i -> nth_error (o_sections o) i = Some sec -> sec_file sec = Some start ->
    sec_address sec <= sym_address s -> sym_address s + size <= sec_address sec + sec_size sec -> start + sec_size sec <= N.of_nat (length binary) ->
    static o binary name size (sym_address s) (start + (sym_address s - sec_address sec)).
(** Memory after the sections of a file have been loaded *)
Definition loaded (o : object) (binary : list N) (mem : N -> N) : Prop :=
  forall sec start i x, In sec (o_sections o) -> sec_file sec = Some start -> i < sec_size sec -> nth_error binary (N.to_nat (start + i)) = Some x -> mem (sec_address sec + i) = x.

(** [b'] is [b] but for the bytes from [from] on, as many as those of [bytes], which it has instead. *)
Definition patched (b : list N) (from : N) (bytes : list N) (b' : list N) : Prop :=
  length b' = length b /\
  forall i, nth_error b' i = if (N.to_nat from <=? i)%nat && (i <? N.to_nat from + length bytes)%nat then nth_error bytes (i - N.to_nat from) else nth_error b i.
(** What the CRC is calculated of: the file, without its CRC, and with zeros at the end *)
Inductive summed (b : list N) (at_ : N) : list N -> Prop :=
| summed_of z n : patched b at_ (repeat 0 8) z -> (n < 8)%nat -> ((length z + n) mod 8 = 0)%nat -> summed b at_ (z ++ repeat 0 n).
(** CRC-64/WE: as in C86 *)
Definition is_crc64we (data : list N) (crc : N) : Prop := remainder 0x142F0E1EBA9EA3693 (preset 64 0xffffffffffffffff data) (N.lxor crc 0xffffffffffffffff).
