(** Model of the fixed-capacity list of subject IDs in canadensis_data_types/src/optimized.rs. *)
From Verif Require Import Base EncModel EncSpec GenModel.

(** canadensis_core/src/lib.rs:48-50 [SubjectId::from_truncating] (the largest ID is 8191) *)
Definition subject_from_truncating (value : N) : N := N.land value 8191.
(** optimized.rs:5 *)
Definition SPARSE_LIST_DISCRIMINANT : N := 1.
(** optimized.rs:29-32 [size_bits] *)
Definition sid_size_bits (ids : list N) : nat := (8 + 8 + length ids * 16)%nat.
(** optimized.rs:34-42 [serialize]; [as u8] keeps eight bits of the length *)
Definition sid_serialize (ids : list N) : list wop :=
  WAligned 1 SPARSE_LIST_DISCRIMINANT :: WAligned 1 (N.of_nat (length ids) mod 256) :: map (WAligned 2) ids.
(** optimized.rs:57-61, the loop.  [push] fails without effect when the list is full. *)
Fixpoint sid_loop (capacity : nat) (n : nat) (ids : list N) : deserializer (list N) :=
  match n with
  | O => dret ids
  | S k => dbind (lift read_aligned_u16) (fun value =>
           sid_loop capacity k (if (length ids <? capacity)%nat then ids ++ [subject_from_truncating value] else ids))
  end.
(** optimized.rs:45-63 [deserialize]; [capacity] is the parameter [N] *)
Definition sid_deserialize (capacity : nat) : deserializer (list N) :=
  dbind (lift read_aligned_u8) (fun discriminant =>
  if negb (discriminant =? SPARSE_LIST_DISCRIMINANT) then derr UnionTag
  else dbind (lift read_aligned_u8) (fun len =>
  if (capacity <? N.to_nat len)%nat then derr ArrayLength
  else sid_loop capacity (N.to_nat len) [])).
(** canadensis_encoding/src/lib.rs:40-44, 81-88 *)
Definition sid_to_bytes (ids bytes : list N) : res (list N) := bind (wrun (wc_new bytes) (sid_serialize ids)) (fun c => Ok (wc_bytes c)).
Definition sid_from_bytes (capacity : nat) (bytes : list N) : res (dres (list N)) := bind (sid_deserialize capacity (rc_new bytes)) (fun x => Ok (fst x)).
