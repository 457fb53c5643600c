(** Model of the CRC of firmware images: canadensis_write_crc/src/main.rs and canadensis_crc/src/lib.rs.

    - An ELF file is parsed by the third-party crate [object]; parsing is a parameter.  Of its result, symbols and sections are modelled.
    - [usize] has 64 bits.  Overflow panics, as in debug builds.
    - Files: all in the directory of the image.  Writing a file takes it through all prefixes of its content; renaming is one step.  That a file is not
      on the disk before [fsync] is not modelled. *)
From Coq Require Import String.
From Verif Require Import Base ExprModel PkgModel PnpModel.
Open Scope list_scope.
Open Scope N_scope.

(** Crate [object]: what is used of symbols and sections *)
Record symbol := Symbol { sym_name : option text; sym_address : N; sym_section : option nat }.
Record section := Section_ { sec_address : N; sec_size : N; sec_file : option N }.
Record object := Object { o_symbols : list symbol; o_sections : list section }.

(** main.rs:87-118 [find_symbol_file_offset] *)
Definition symbol_offset (o : object) (s : symbol) : out N :=
  match sym_section s with
  | None => Fail
  | Some i =>
      match nth_error (o_sections o) i with
      | None => Fail
      | Some sec =>
          match sec_file sec with
          | None => Fail
          | Some start =>
              if sym_address s <? sec_address sec then Crash
              else if start + (sym_address s - sec_address sec) <? 2 ^ 64 then Done (start + (sym_address s - sec_address sec)) else Crash
          end
      end
  end.
Definition has_symbol_name (name : text) (s : symbol) : bool := match sym_name s with Some n => text_eqb n name | None => false end.
Definition find_symbol_file_offset (o : object) (name : text) : out N :=
  match find (has_symbol_name name) (o_symbols o) with None => Fail | Some s => symbol_offset o s end.
Definition crc_symbol : text := name_of "CANADENSIS_CRC".
Definition crc_valid_symbol : text := name_of "CANADENSIS_CRC_VALID".

(** [binary[offset..][..n].copy_from_slice(bytes)] *)
Definition put (binary : list N) (offset : N) (bytes : list N) : out (list N) :=
  if offset + N.of_nat (length bytes) <=? N.of_nat (length binary)
  then Done (firstn (N.to_nat offset) binary ++ bytes ++ skipn (N.to_nat offset + length bytes) binary)
  else Crash.
(** main.rs:60-62 [clear_crc], 64-68 [write_crc], 70-72 [write_crc_valid] *)
Definition clear_crc (binary : list N) (offset : N) : out (list N) := put binary offset (repeat 0 8).
Definition write_crc (binary : list N) (offset : N) (crc : N) : out (list N) := put binary offset (le_bytes 8 crc).
Definition write_crc_valid (binary : list N) (offset : N) : out (list N) := put binary offset [1].
(** main.rs:152-163 [pad_to_8_bytes] *)
Definition pad_to_8_bytes (data : list N) : list N :=
  let extra := (length data mod 8)%nat in
  if (extra =? 0)%nat then data else data ++ repeat 0 (8 - extra).
(** main.rs:141-150 [crc_64_we] *)
Definition crc_64_we (data : list N) : N := crc64we (pad_to_8_bytes data).
(** main.rs:36-51, 79-85: from the content of the file to its new content *)
Definition update_image (parse : list N -> option object) (binary : list N) : out (list N) :=
  match parse binary with
  | None => Fail
  | Some o =>
      obind (find_symbol_file_offset o crc_symbol) (fun c =>
      obind (find_symbol_file_offset o crc_valid_symbol) (fun v =>
      obind (clear_crc binary c) (fun b =>
      obind (write_crc_valid b v) (fun b =>
      write_crc b c (crc_64_we b)))))
  end.

(** std: [Path::with_extension("tmp")] on the name of a file: what follows the last point is replaced, unless nothing precedes the point *)
Fixpoint before_last_point (s : text) : option text :=
  match s with
  | [] => None
  | c :: r => match before_last_point r with Some b => Some (c :: b) | None => if c =? 46 then Some [] else None end
  end.
Definition file_stem (name : text) : text := match before_last_point name with None | Some [] => name | Some b => b end.
Definition temporary (name : text) : text := file_stem name ++ name_of ".tmp".

(** The files of a directory *)
Definition files := text -> option (list N).
Definition set_file (name : text) (content : option (list N)) (fs : files) : files := fun q => if text_eqb q name then content else fs q.
Definition rename (from to : text) (fs : files) : files := fun q => if text_eqb q to then fs from else if text_eqb q from then None else fs q.
(** main.rs:36-58 [run]: the states of the directory, first to last.  The tool can be stopped, or fail to write, after each. *)
Definition states (parse : list N -> option object) (input : text) (fs : files) : list files :=
  match fs input with
  | None => [fs]
  | Some binary =>
      match update_image parse binary with
      | Done new =>
          fs :: map (fun n => set_file (temporary input) (Some (firstn n new)) fs) (seq 0 (S (length new)))
             ++ [rename (temporary input) input (set_file (temporary input) (Some new) fs)]
      | _ => [fs]
      end
  end.

(** canadensis_crc/src/lib.rs:30-40 [get_crc], on a processor of either byte order; [mem] is the memory, the addresses are those of the statics *)
Definition read_u64 (big_endian : bool) (mem : N -> N) (a : N) : N :=
  let bytes := map (fun i => mem (a + N.of_nat i)) (seq 0 8) in
  from_le (if big_endian then rev bytes else bytes).
Definition get_crc (big_endian : bool) (mem : N -> N) (crc valid : N) : option N := if mem valid =? 1 then Some (read_u64 big_endian mem crc) else None.
