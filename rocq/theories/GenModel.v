(** Model of the code that canadensis_codegen_rust/src/{lib,impl_serialize,impl_deserialize,size_bits}.rs generates from a DSDL
    type, and of the parts of canadensis_dsdl_frontend/src/{compile,types,compiled}.rs that it depends on.

    The generator is modelled by what the generated functions do: for a type and a value, the sequence of calls on the write
    cursor; for a type, a function on the read cursor.  Not modelled: names, comments, constants, deprecation, structs that are
    generated as fieldless enums, void types other than padding fields, the unpadded bit length of service requests.  A panic of
    the frontend while it calculates lengths (overflow) shows as [None] or as an unaligned field here, where no code would be
    generated.  [usize] is not bounded.  The target is little-endian. *)
From Verif Require Import Base EncModel EncSpec BlsModel.

(** * Types *)

(** types.rs:290-337 [PrimitiveType]; [CastMode] has no effect on the generated code *)
Inductive prim := PBool | PUtf8 | PByte | PInt (bits : nat) | PUInt (bits : nat) | PFloat16 | PFloat32 | PFloat64.
Definition prim_bits (p : prim) : nat :=
  match p with PBool => 1 | PUtf8 | PByte => 8 | PInt bits | PUInt bits => bits | PFloat16 => 16 | PFloat32 => 32 | PFloat64 => 64 end.

(** types.rs:553-563 [ResolvedScalarType], 491-506 [ResolvedType]; compiled.rs:107-153 [Field], 79-105 [MessageKind], 28-42
    [Message], with [Extent::Delimited] as [true] *)
Inductive scalar (M : Type) := SComposite (m : M) | SPrimitive (p : prim).
Arguments SComposite {M} m. Arguments SPrimitive {M} p.
Inductive rtype (M : Type) := TScalar (s : scalar M) | TFixed (s : scalar M) (len : N) | TVariable (s : scalar M) (max_len : N).
Arguments TScalar {M} s. Arguments TFixed {M} s len. Arguments TVariable {M} s max_len.
Inductive member (M : Type) := MPadding (bits : nat) | MData (t : rtype M).
Arguments MPadding {M} bits. Arguments MData {M} t.
Inductive kind (M : Type) := KStruct (fields : list (member M)) | KUnion (variants : list (rtype M)).
Arguments KStruct {M} fields. Arguments KUnion {M} variants.
Inductive message := Message (delimited : bool) (k : kind message).

Definition delimited (m : message) : bool := match m with Message d _ => d end.

(** * The frontend: lengths and alignment *)

(** types.rs:133-142 [array_length_bits], [bit_length], [round_up_length] *)
Definition array_length_bits (max_items : N) : N := 2 ^ N.log2_up (N.max (N.size max_items) 8).
(** compile.rs:979-987 [calculate_discriminant_bits] *)
Definition discriminant_bits (variants : nat) : N := array_length_bits (N.of_nat variants).

(** types.rs:591-596, 519-526 [alignment] *)
Definition scalar_alignment (s : scalar message) : N := match s with SComposite _ => 8 | SPrimitive _ => 1 end.
Definition type_scalar (t : rtype message) : scalar message := match t with TScalar s | TFixed s _ | TVariable s _ => s end.
Definition type_alignment (t : rtype message) : N := scalar_alignment (type_scalar t).
(** types.rs:598-607 [extent] *)
Definition scalar_delimited (s : scalar message) : bool := match s with SComposite m => delimited m | SPrimitive _ => false end.
(** types.rs:529-543, 610-618 [implicit_field], as a number of bits *)
Definition implicit_bits (t : rtype message) : option N :=
  match t with
  | TScalar s => if scalar_delimited s then Some 32 else None
  | TFixed _ _ => None
  | TVariable _ max_len => Some (array_length_bits max_len)
  end.

Section Lengths.
  Context (bl : message -> operator).
  (** types.rs:581-589, 509-518 [size] *)
  Definition scalar_size (s : scalar message) : operator :=
    match s with SComposite m => bl m | SPrimitive p => bls_single (N.of_nat (prim_bits p)) end.
  Definition type_size (t : rtype message) : operator :=
    match t with
    | TScalar s => scalar_size s
    | TFixed s len => bls_repeat (scalar_size s) len
    | TVariable s max_len => bls_repeat_range (scalar_size s) max_len
    end.
  (** compile.rs:303-330: the length of a field with its implicit field (alignment of implicit fields is 1) *)
  Definition total_length (t : rtype message) : operator :=
    match implicit_bits t with Some bits => bls_concatenate (type_size t) [bls_single bits] | None => type_size t end.
  (** compile.rs:512-556 [add_padding_field], 558-648 [add_field]: the length of the struct after the field; [None]: no fields yet *)
  Definition add_member (before : option operator) (f : member message) : operator :=
    match f with
    | MPadding bits =>
        match before with None => bls_single (N.of_nat bits) | Some l => bls_concatenate l [bls_single (N.of_nat bits)] end
    | MData t =>
        let l := match before with None => bls_single 0 | Some l => l end in
        bls_pad (bls_concatenate (bls_pad l (type_alignment t)) [total_length t]) (type_alignment t)
    end.
  Definition struct_length : option operator -> list (member message) -> operator :=
    fix go before fs :=
      match fs with
      | [] => match before with None => bls_single 0 | Some l => l end
      | f :: r => go (Some (add_member before f)) r
      end.
  (** compile.rs:989-1003 [make_union_bit_length] *)
  Definition union_length (ts : list (rtype message)) : operator :=
    bls_concatenate (bls_single (discriminant_bits (length ts)))
      [match map type_size ts with [] => bls_single 0 | s :: r => fold_left (fun a b => bls_unite a [b]) r s end].
  (** compile.rs:714-775 [finish] *)
  Definition kind_length (k : kind message) : operator :=
    match k with KStruct fs => struct_length None fs | KUnion ts => union_length ts end.
End Lengths.
Fixpoint bit_length (m : message) : operator := match m with Message _ k => bls_pad (kind_length bit_length k) 8 end.

(** the flags [always_aligned]: compile.rs:523, 576-580, 603, 617 *)
Definition always_aligned (before : option operator) : bool :=
  match before with
  | None => true
  | Some l => match bls_is_byte_aligned l with Ok b => b | Panic => false end
  end.
(** the fields of a struct with their flags *)
Fixpoint with_flags (before : option operator) (fs : list (member message)) : list (bool * member message) :=
  match fs with [] => [] | f :: r => (always_aligned before, f) :: with_flags (Some (add_member bit_length before f)) r end.

(** size_bits.rs:14-18, 135-137, 181-184: the length if there is only one *)
Definition fixed_size (o : operator) : option N :=
  match bls_min_value o, bls_max_value o with Ok a, Ok b => if a =? b then Some a else None | _, _ => None end.

(** * Values *)

(** Values of the generated types: bool, unsigned integers (also bytes, and floating-point values as their bit patterns), signed
    integers, [BitArray] (only the bits in use), arrays and [heapless::Vec], structs (the values of the data fields), enums *)
Inductive value :=
| VBool (b : bool)
| VUnsigned (n : N)
| VSigned (z : Z)
| VBits (bits : list bool)
| VArray (vs : list value)
| VStruct (vs : list value)
| VUnion (tag : nat) (v : value).

(** lib.rs:638-646 [round_up_integer_size] *)
Definition round_up_integer_size (bits : nat) : nat :=
  if (bits <=? 8)%nat then 8 else if (bits <=? 16)%nat then 16 else if (bits <=? 32)%nat then 32 else 64.
Definition next_multiple_of (n k : nat) : nat := ((n + (k - 1)) / k * k)%nat.

(** element [i] of a list, handed to [f] *)
Definition pick {A B} (f : A -> B) (d : B) : nat -> list A -> B :=
  fix go i l {struct l} := match l, i with x :: _, O => f x | _ :: r, S j => go j r | [], _ => d end.

(** * [size_bits] *)

Definition header_bits (s : scalar message) : nat := if scalar_delimited s then 32 else 0.
Section Size.
  Context (size : message -> value -> nat).
  (** size_bits.rs:172-213 [WriteScalarSize] *)
  Definition scalar_size_expr (s : scalar message) (v : value) : nat :=
    match s with
    | SComposite m =>
        (header_bits s + match fixed_size (bit_length m) with
                         | Some n => next_multiple_of (N.to_nat n) 8
                         | None => next_multiple_of (size m v) 8
                         end)%nat
    | SPrimitive p => prim_bits p
    end.
  (** size_bits.rs:132-164 [WriteArrayElementSizes] *)
  Definition elements_size_expr (s : scalar message) (v : value) : nat :=
    let vs := match v with VArray vs => vs | VBits bits => map VBool bits | _ => [] end in
    match fixed_size (scalar_size bit_length s) with
    | Some n => (length vs * next_multiple_of (header_bits s + N.to_nat n) (N.to_nat (scalar_alignment s)))%nat
    | None => fold_right (fun v sum => scalar_size_expr s v + sum)%nat O vs
    end.
  (** size_bits.rs:86-125 [WriteFieldSize] *)
  Definition field_size_expr (t : rtype message) (v : value) : nat :=
    match t with
    | TScalar s => scalar_size_expr s v
    | TFixed s _ => elements_size_expr s v
    | TVariable s max_len => (N.to_nat (array_length_bits max_len) + elements_size_expr s v)%nat
    end.
  (** size_bits.rs:30-50 *)
  Definition struct_size_expr : list (member message) -> list value -> nat :=
    fix go fs vs :=
      match fs with
      | [] => O
      | MPadding bits :: r => (bits + go r vs)%nat
      | MData t :: r => match vs with v :: vs' => (field_size_expr t v + go r vs')%nat | [] => O end
      end.
End Size.
(** size_bits.rs:12-79 *)
Fixpoint size_bits (m : message) (v : value) {struct m} : nat :=
  match fixed_size (bit_length m) with
  | Some n => N.to_nat n
  | None =>
      match m with
      | Message _ (KStruct fs) => match v with VStruct vs => struct_size_expr size_bits fs vs | _ => O end
      | Message _ (KUnion ts) =>
          match v with
          | VUnion tag v' => (N.to_nat (discriminant_bits (length ts)) + pick (fun t => field_size_expr size_bits t v') O tag ts)%nat
          | _ => O
          end
      end
  end.

(** * Zero-copy types *)

Section ZeroCopy.
  Context (zc : message -> bool).
  (** lib.rs:464-482 [scalar_supports_zero_copy] *)
  Definition scalar_zero_copy (s : scalar message) : bool :=
    match s with
    | SComposite m => zc m
    | SPrimitive PBool => false
    | SPrimitive (PInt bits) | SPrimitive (PUInt bits) => (bits =? 8)%nat || (bits =? 16)%nat || (bits =? 32)%nat || (bits =? 64)%nat
    | SPrimitive _ => true
    end.
  (** lib.rs:456-462 [type_supports_zero_copy] *)
  Definition type_zero_copy (t : rtype message) : bool :=
    match t with TScalar s | TFixed s _ => scalar_zero_copy s | TVariable _ _ => false end.
  Definition members_zero_copy : list (member message) -> bool :=
    fix go fs := match fs with [] => true | MPadding _ :: _ => false | MData t :: r => type_zero_copy t && go r end.
End ZeroCopy.
(** lib.rs:485-507 [message_supports_zero_copy] *)
Fixpoint message_zero_copy (m : message) : bool :=
  match m with
  | Message _ (KStruct fs) =>
      match fixed_size (bit_length m) with
      | Some _ => forallb fst (with_flags None fs) && members_zero_copy message_zero_copy fs
      | None => false
      end
  | Message _ (KUnion _) => false
  end.
(** lib.rs:404-430 [supports_zero_copy] *)
Definition supports_zero_copy (m : message) : bool :=
  match m with
  | Message _ (KStruct fs) =>
      match fixed_size (bit_length m) with Some _ => members_zero_copy message_zero_copy fs | None => false end
  | Message _ (KUnion _) => false
  end.

(** [round_up_integer_size] bits in two's complement: [as u8] ... [as u64] of a signed value *)
Definition as_unsigned (bits : nat) (z : Z) : N := Z.to_N (z mod 2 ^ Z.of_nat (round_up_integer_size bits)).
(** [as i8] ... [as i64] of an unsigned value *)
Definition as_signed (bits : nat) (n : N) : Z :=
  let w := N.of_nat (round_up_integer_size bits) in if n <? 2 ^ (w - 1) then Z.of_N n else (Z.of_N n - 2 ^ Z.of_N w)%Z.

(** zerocopy [IntoBytes::as_bytes] of a [repr(C, packed)] struct (lib.rs:785-789) *)
Section Memory.
  Context (mem : message -> value -> list N).
  Definition scalar_memory (s : scalar message) (v : value) : list N :=
    match s with
    | SComposite m => mem m v
    | SPrimitive p =>
        match p, v with
        | PInt bits, VSigned z => le_bytes (bits / 8) (as_unsigned bits z)
        | _, VUnsigned n => le_bytes (prim_bits p / 8) n
        | _, _ => []
        end
    end.
  Definition type_memory (t : rtype message) (v : value) : list N :=
    match t, v with
    | TScalar s, _ => scalar_memory s v
    | TFixed s _, VArray vs => flat_map (scalar_memory s) vs
    | _, _ => []
    end.
  Definition members_memory : list (member message) -> list value -> list N :=
    fix go fs vs :=
      match fs with
      | [] => []
      | MPadding _ :: r => go r vs
      | MData t :: r => match vs with v :: vs' => type_memory t v ++ go r vs' | [] => [] end
      end.
End Memory.
Fixpoint memory (m : message) (v : value) {struct m} : list N :=
  match m with
  | Message _ (KStruct fs) => match v with VStruct vs => members_memory memory fs vs | _ => [] end
  | Message _ (KUnion _) => []
  end.

(** * [serialize] *)

(** impl_serialize.rs:101-103 [have_aligned_write_functions], 499-528 [CallWriteAligned], 530-551 [CallWrite] *)
Definition aligned_width (bits : nat) : bool := (bits =? 8)%nat || (bits =? 16)%nat || (bits =? 32)%nat || (bits =? 64)%nat.
Definition call_write (aligned : bool) (bits : nat) (n : N) : wop :=
  if aligned && aligned_width bits then WAligned (bits / 8) n else WField bits n.
(** impl_serialize.rs:188-232 (aligned), 311-351 (unaligned), 434-491 (array elements) *)
Definition write_prim (aligned : bool) (p : prim) (v : value) : list wop :=
  match p, v with
  | PBool, VBool b => [WBool b]
  | (PUtf8 | PByte), VUnsigned n => [call_write aligned 8 n]
  | PInt bits, VSigned z => [call_write aligned bits (as_unsigned bits z)]
  | PUInt bits, VUnsigned n => [call_write aligned bits n]
  | PFloat16, VUnsigned n => [WField 16 n]
  | PFloat32, VUnsigned n => [WField 32 n]
  | PFloat64, VUnsigned n => [WField 64 n]
  | _, _ => []
  end.
Definition is_bytes (p : prim) : bool := match p with PUtf8 | PByte | PUInt 8 => true | _ => false end.
Definition unsigned_of (v : value) : N := match v with VUnsigned n => n | _ => 0 end.
(** a [BitArray<BYTES>] with the given bits; lib.rs:578-588: [BYTES] is the (maximum) length in whole bytes *)
Definition bit_array_bytes (len : N) : nat := N.to_nat ((len + 7) / 8).
Definition bit_array (BYTES : nat) (bits : list bool) : bitarray :=
  BA (map (fun i => value_of (map (fun j => nth (8 * i + j) bits false) (seq 0 8))) (seq 0 BYTES)) (length bits).
Section Serialize.
  Context (ser : message -> value -> list wop).
  Definition write_composite_of (m : message) (v : value) : wop := WComposite (delimited m) (size_bits m v) (ser m v).
  Definition write_scalar (aligned : bool) (s : scalar message) (v : value) : list wop :=
    match s with SComposite m => [write_composite_of m v] | SPrimitive p => write_prim aligned p v end.
  (** impl_serialize.rs:418-497 [WriteArrayElements] *)
  Definition write_elements (s : scalar message) (vs : list value) : list wop :=
    match s with
    | SComposite m => map (write_composite_of m) vs
    | SPrimitive p => if is_bytes p then [WBytes (map unsigned_of vs)] else flat_map (write_prim false p) vs
    end.
  (** impl_serialize.rs:176-297 [WriteAlignedField], 299-416 [WriteUnalignedField] *)
  Definition write_type (aligned : bool) (t : rtype message) (v : value) : list wop :=
    match t, v with
    | TScalar s, _ => write_scalar aligned s v
    | TFixed (SPrimitive PBool) len, VBits bits => [WBits (bit_array (bit_array_bytes len) bits)]
    | TVariable (SPrimitive PBool) max_len, VBits bits =>
        [call_write aligned (N.to_nat (array_length_bits max_len)) (N.of_nat (length bits)); WBits (bit_array (bit_array_bytes max_len) bits)]
    | TFixed s _, VArray vs => write_elements s vs
    | TVariable s max_len, VArray vs =>
        call_write aligned (N.to_nat (array_length_bits max_len)) (N.of_nat (length vs)) :: write_elements s vs
    | _, _ => []
    end.
  (** impl_serialize.rs:45-47, 105-132 [SerializeField] *)
  Definition write_members : option operator -> list (member message) -> list value -> list wop :=
    fix go before fs vs :=
      match fs with
      | [] => []
      | MPadding bits :: r => WSkip bits :: go (Some (add_member bit_length before (MPadding bits))) r vs
      | MData t :: r =>
          match vs with
          | v :: vs' => write_type (always_aligned before) t v ++ go (Some (add_member bit_length before (MData t))) r vs'
          | [] => []
          end
      end.
End Serialize.
(** impl_serialize.rs:16-97 [ImplementSerialize], 153-174 [WriteVariant] *)
Fixpoint serialize (m : message) (v : value) {struct m} : list wop :=
  match m with
  | Message _ (KStruct fs) =>
      match v with
      | VStruct vs => if supports_zero_copy m then [WAlignedBytes (memory m v)] else write_members serialize None fs vs
      | _ => []
      end
  | Message _ (KUnion ts) =>
      match v with
      | VUnion tag v' => call_write true (N.to_nat (discriminant_bits (length ts))) (N.of_nat tag) :: pick (fun t => write_type serialize true t v') [] tag ts
      | _ => []
      end
  end.

(** * [deserialize] *)

Definition dret {A} (a : A) : deserializer A := fun c => Ok (DOk a, c).
Definition derr {A} (e : des_error) : deserializer A := fun c => Ok (DErr e, c).
Definition dbind {A B} (d : deserializer A) (f : A -> deserializer B) : deserializer B :=
  fun c => bind (d c) (fun x => match fst x with DOk a => f a (snd x) | DErr e => Ok (DErr e, snd x) end).
(** a call on the cursor that reports no errors *)
Definition lift {A} (f : rc -> res (A * rc)) : deserializer A := fun c => bind (f c) (fun x => Ok (DOk (fst x), snd x)).

(** [as i32]: the type of [length] and of the matched tag is inferred as [i32] *)
Definition as_i32 (n : N) : Z := let w := n mod 2 ^ 32 in if w <? 2 ^ 31 then Z.of_N w else (Z.of_N w - 2 ^ 32)%Z.
(** impl_deserialize.rs:231-259 [CallReadAligned], [CallRead] *)
Definition call_read_aligned (bits : nat) (c : rc) : res (N * rc) :=
  if (bits =? 8)%nat then read_aligned_u8 c
  else if (bits =? 16)%nat then read_aligned_u16 c
  else if (bits =? 32)%nat then read_aligned_u32 c
  else if (bits =? 64)%nat then read_aligned_u64 c
  else read_u c bits.
(** impl_deserialize.rs:214-224 *)
Definition read_prim (p : prim) : deserializer value :=
  match p with
  | PBool => dbind (lift read_bool) (fun b => dret (VBool b))
  | PInt bits => dbind (lift (fun c => read_u c bits)) (fun n => dret (VSigned (as_signed bits n)))
  | _ => dbind (lift (fun c => read_u c (prim_bits p))) (fun n => dret (VUnsigned n))
  end.
Fixpoint read_times (d : deserializer value) (n : nat) : deserializer (list value) :=
  match n with O => dret [] | S k => dbind d (fun v => dbind (read_times d k) (fun vs => dret (v :: vs))) end.
(** [BitArray::deserialize(length, cursor)] into a [BitArray<BYTES>] *)
Definition read_bit_array (BYTES len : nat) : deserializer value :=
  dbind (lift (ba_deserialize BYTES len)) (fun a => dbind (lift (fun c => bind (ba_iter a) (fun l => Ok (l, c)))) (fun l => dret (VBits l))).
Section Deserialize.
  Context (des : message -> deserializer value).
  (** impl_deserialize.rs:208-229 [ReadUnalignedScalar] *)
  Definition read_scalar (s : scalar message) : deserializer value :=
    match s with SComposite m => fun c => read_composite c (delimited m) (des m) | SPrimitive p => read_prim p end.
  (** impl_deserialize.rs:128-203 [ReadUnalignedField] *)
  Definition read_type (t : rtype message) : deserializer value :=
    match t with
    | TScalar s => read_scalar s
    | TFixed (SPrimitive PBool) len => read_bit_array (bit_array_bytes len) (N.to_nat len)
    | TVariable (SPrimitive PBool) max_len =>
        dbind (lift (fun c => read_u c (N.to_nat (array_length_bits max_len)))) (fun n => read_bit_array (bit_array_bytes max_len) (N.to_nat n))
    | TFixed s len => dbind (read_times (read_scalar s) (N.to_nat len)) (fun vs => dret (VArray vs))
    | TVariable s max_len =>
        dbind (lift (fun c => read_u c (N.to_nat (array_length_bits max_len)))) (fun n =>
        if (as_i32 n <=? Z.of_N max_len)%Z
        then dbind (read_times (read_scalar s) (Z.to_nat (as_i32 n))) (fun vs => dret (VArray vs))
        else derr ArrayLength)
    end.
  (** impl_deserialize.rs:50-79: [padding] is the padding before the next data field *)
  Definition read_members : list nat -> list (member message) -> deserializer (list value) :=
    fix go padding fs :=
      match fs with
      | [] => dret []
      | MPadding bits :: r => go (padding ++ [bits]) r
      | MData t :: r => fun c => dbind (read_type t) (fun v => dbind (go [] r) (fun vs => dret (v :: vs))) (fold_left rc_advance padding c)
      end.
End Deserialize.
(** [FromBytes] of the memory of a zero-copy struct *)
Section FromMemory.
  Context (from : message -> list N -> value * list N).
  Definition scalar_from_memory (s : scalar message) (bs : list N) : value * list N :=
    match s with
    | SComposite m => from m bs
    | SPrimitive p =>
        let k := (prim_bits p / 8)%nat in
        (match p with PInt bits => VSigned (as_signed bits (from_le (firstn k bs))) | _ => VUnsigned (from_le (firstn k bs)) end, skipn k bs)
    end.
  Definition elements_from_memory (s : scalar message) : nat -> list N -> list value * list N :=
    fix go n bs :=
      match n with O => ([], bs) | S k => let (v, r) := scalar_from_memory s bs in let (vs, r') := go k r in (v :: vs, r') end.
  Definition type_from_memory (t : rtype message) (bs : list N) : value * list N :=
    match t with
    | TScalar s => scalar_from_memory s bs
    | TFixed s len => let (vs, r) := elements_from_memory s (N.to_nat len) bs in (VArray vs, r)
    | TVariable _ _ => (VArray [], bs)
    end.
  Definition members_from_memory : list (member message) -> list N -> list value * list N :=
    fix go fs bs :=
      match fs with
      | [] => ([], bs)
      | MPadding _ :: r => go r bs
      | MData t :: r => let (v, b1) := type_from_memory t bs in let (vs, b2) := go r b1 in (v :: vs, b2)
      end.
End FromMemory.
Fixpoint from_memory (m : message) (bs : list N) {struct m} : value * list N :=
  match m with
  | Message _ (KStruct fs) => let (vs, r) := members_from_memory from_memory fs bs in (VStruct vs, r)
  | Message _ (KUnion _) => (VArray [], bs)
  end.
(** the size of the memory, in bytes *)
Section MemorySize.
  Context (msize : message -> nat).
  Definition scalar_memory_size (s : scalar message) : nat :=
    match s with SComposite m => msize m | SPrimitive p => (prim_bits p / 8)%nat end.
  Definition type_memory_size (t : rtype message) : nat :=
    match t with TScalar s => scalar_memory_size s | TFixed s len => (N.to_nat len * scalar_memory_size s)%nat | TVariable _ _ => O end.
  Definition members_memory_size : list (member message) -> nat :=
    fix go fs := match fs with [] => O | MPadding _ :: r => go r | MData t :: r => (type_memory_size t + go r)%nat end.
End MemorySize.
Fixpoint memory_size (m : message) : nat :=
  match m with Message _ (KStruct fs) => members_memory_size memory_size fs | Message _ (KUnion _) => O end.

(** impl_deserialize.rs:17-122 [ImplementDeserialize], [deserialize_struct], [deserialize_enum] *)
Fixpoint deserialize (m : message) : deserializer value :=
  match m with
  | Message _ (KStruct fs) =>
      if supports_zero_copy m
      then dbind (lift (deserialize_zero_copy (memory_size m))) (fun bs => dret (fst (from_memory m bs)))
      else dbind (read_members deserialize [] fs) (fun vs => dret (VStruct vs))
  | Message _ (KUnion ts) =>
      dbind (lift (call_read_aligned (N.to_nat (discriminant_bits (length ts))))) (fun n =>
      if (as_i32 n <? 0)%Z then derr UnionTag
      else pick (fun t => dbind (read_type deserialize t) (fun v => dret (VUnion (Z.to_nat (as_i32 n)) v))) (derr UnionTag) (Z.to_nat (as_i32 n)) ts)
  end.

(** * Whole slices *)

(** canadensis_encoding/src/lib.rs:40-44 [serialize_to_bytes]: the bytes in the slice afterwards *)
Definition serialize_to_bytes (m : message) (v : value) (bytes : list N) : res (list N) :=
  bind (wrun (wc_new bytes) (serialize m v)) (fun c => Ok (wc_bytes c)).
(** canadensis_encoding/src/lib.rs:81-88 [deserialize_from_bytes] *)
Definition deserialize_from_bytes (m : message) (bytes : list N) : res (dres value) :=
  bind (deserialize m (rc_new bytes)) (fun x => Ok (fst x)).
