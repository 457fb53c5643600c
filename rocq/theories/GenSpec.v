(** Specification of the encoding of DSDL types (Cyphal specification, chapter 3), and the DSDL types for which the generated code
    follows it. *)
From Verif Require Import Base EncModel EncSpec BlsModel BlsSpec GenModel.

(** * Values of a type *)

Definition array_items (v : value) : list value :=
  match v with VArray vs => vs | VBits bits => map VBool bits | _ => [] end.

Section Fits.
  (** [okp]: condition on primitive values; [okb]: condition on variable-length arrays of booleans (capacity, bits) *)
  Context (okp : prim -> value -> bool) (okb : N -> list bool -> bool).
  Section Types.
    Context (ok : message -> value -> bool).
    Definition scalar_fits (s : scalar message) (v : value) : bool :=
      match s with SComposite m => ok m v | SPrimitive p => okp p v end.
    Definition type_fits (t : rtype message) (v : value) : bool :=
      match t, v with
      | TScalar s, _ => scalar_fits s v
      | TFixed (SPrimitive PBool) len, VBits bits => N.of_nat (length bits) =? len
      | TFixed (SPrimitive PBool) _, _ => false
      | TFixed s len, VArray vs => (N.of_nat (length vs) =? len) && forallb (scalar_fits s) vs
      | TVariable (SPrimitive PBool) max_len, VBits bits => (N.of_nat (length bits) <=? max_len) && okb max_len bits
      | TVariable (SPrimitive PBool) _, _ => false
      | TVariable s max_len, VArray vs => (N.of_nat (length vs) <=? max_len) && forallb (scalar_fits s) vs
      | _, _ => false
      end.
    Definition members_fit : list (member message) -> list value -> bool :=
      fix go fs vs :=
        match fs with
        | [] => match vs with [] => true | _ => false end
        | MPadding _ :: r => go r vs
        | MData t :: r => match vs with v :: vs' => type_fits t v && go r vs' | [] => false end
        end.
  End Types.
  Fixpoint fits_gen (m : message) (v : value) {struct m} : bool :=
    match m with
    | Message _ (KStruct fs) => match v with VStruct vs => members_fit fits_gen fs vs | _ => false end
    | Message _ (KUnion ts) => match v with VUnion tag v' => pick (fun t => type_fits fits_gen t v') false tag ts | _ => false end
    end.
End Fits.

(** A value of the DSDL type: numbers in range, arrays of the right length. *)
Definition prim_fits (p : prim) (v : value) : bool :=
  match p, v with
  | PBool, VBool _ => true
  | PInt bits, VSigned z => (- 2 ^ (Z.of_nat bits - 1) <=? z)%Z && (z <? 2 ^ (Z.of_nat bits - 1))%Z
  | PInt _, _ | PBool, _ => false
  | _, VUnsigned n => n <? 2 ^ N.of_nat (prim_bits p)
  | _, _ => false
  end.
Definition fits : message -> value -> bool := fits_gen prim_fits (fun _ _ => true).

(** * The encoding *)

(** the shortest of 8, 16, 32 and 64 bits that can represent [max] *)
Definition prefix_bits (max : N) : nat := if max <? 2 ^ 8 then 8 else if max <? 2 ^ 16 then 16 else if max <? 2 ^ 32 then 32 else 64.

(** least significant bit first; two's complement *)
Definition enc_prim (p : prim) (v : value) : list bool :=
  match v with
  | VBool b => [b]
  | VSigned z => bits_of (prim_bits p) (Z.to_N (z mod 2 ^ Z.of_nat (prim_bits p)))
  | VUnsigned n => bits_of (prim_bits p) n
  | _ => []
  end.

Section Encoding.
  Context (enc : message -> value -> list bool).
  (** Composites start at byte boundaries; delimited ones have their length in bytes in front. *)
  Definition enc_scalar (s : scalar message) (v : value) : list bool :=
    match s with
    | SComposite m => (if delimited m then bits_of 32 (N.of_nat (length (enc m v) / 8)) else []) ++ enc m v
    | SPrimitive p => enc_prim p v
    end.
  Definition enc_align (p : nat) (t : rtype message) : list bool :=
    match t with TScalar (SComposite _) | TFixed (SComposite _) _ | TVariable (SComposite _) _ => pad8 p | _ => [] end.
  (** variable-length arrays have their length in front *)
  Definition enc_body (t : rtype message) (v : value) : list bool :=
    match t with
    | TScalar s => enc_scalar s v
    | TFixed s _ => flat_map (enc_scalar s) (array_items v)
    | TVariable s max_len => bits_of (prefix_bits max_len) (N.of_nat (length (array_items v))) ++ flat_map (enc_scalar s) (array_items v)
    end.
  (** a field at bit position [p] *)
  Definition enc_type (p : nat) (t : rtype message) (v : value) : list bool := enc_align p t ++ enc_body t v.
  Definition enc_members : nat -> list (member message) -> list value -> list bool :=
    fix go p fs vs :=
      match fs with
      | [] => []
      | MPadding bits :: r => repeat false bits ++ go (p + bits)%nat r vs
      | MData t :: r => match vs with v :: vs' => let b := enc_type p t v in b ++ go (p + length b)%nat r vs' | [] => [] end
      end.
  Definition enc_kind (k : kind message) (v : value) : list bool :=
    match k, v with
    | KStruct fs, VStruct vs => enc_members 0 fs vs
    | KUnion ts, VUnion tag v' =>
        let b := prefix_bits (N.of_nat (length ts) - 1) in bits_of b (N.of_nat tag) ++ pick (fun t => enc_type b t v') [] tag ts
    | _, _ => []
    end.
End Encoding.
Definition pad_to_byte (bits : list bool) : list bool := bits ++ pad8 (length bits).
Fixpoint enc (m : message) (v : value) {struct m} : list bool := match m with Message _ k => pad_to_byte (enc_kind enc k v) end.
(** before the padding at the end *)
Definition content (m : message) (v : value) : list bool := match m with Message _ k => enc_kind enc k v end.

(** * DSDL types *)

Definition prim_wf (p : prim) : bool := (1 <=? prim_bits p)%nat && (prim_bits p <=? 64)%nat.
Section Wf.
  Context (wf : message -> bool).
  Definition scalar_wf (s : scalar message) : bool := match s with SComposite m => wf m | SPrimitive p => prim_wf p end.
  (** The Rust code for lengths of 2^31 and more does not compile. *)
  Definition type_wf (t : rtype message) : bool :=
    match t with TScalar s => scalar_wf s | TFixed s len => scalar_wf s && (1 <=? len) && (len <? 2 ^ 64) | TVariable s max_len => scalar_wf s && (max_len <? 2 ^ 31) end.
  Definition member_wf (f : member message) : bool := match f with MPadding bits => (1 <=? bits)%nat && (bits <=? 64)%nat | MData t => type_wf t end.
End Wf.
(** What the DSDL grammar and the Rust compiler ask for: integers and padding of 1 to 64 bits, arrays that are not empty, at least
    two variants. *)
Fixpoint wf (m : message) : bool :=
  match m with
  | Message _ (KStruct fs) => forallb (member_wf wf) fs
  | Message _ (KUnion ts) => (2 <=? length ts)%nat && (N.of_nat (length ts) <? 2 ^ 31) && forallb (type_wf wf) ts
  end.

(** * The types for which the generated code is right *)

Section Counted.
  Context (counted : message -> bool).
  Definition scalar_counted (s : scalar message) : bool := match s with SComposite m => counted m | SPrimitive _ => true end.
  Definition sealed (s : scalar message) : bool := negb (scalar_delimited s).
  Definition type_counted (t : rtype message) : bool :=
    match t with TScalar s => scalar_counted s | TFixed s _ | TVariable s _ => scalar_counted s && sealed s end.
  Definition variant_counted (t : rtype message) : bool :=
    match t with TScalar s | TFixed s _ => scalar_counted s && sealed s | TVariable _ _ => false end.
End Counted.
(** the calculated width of the tag is right *)
Definition tag_right (ts : list (rtype message)) : bool :=
  let n := N.of_nat (length ts) in negb (n =? 2 ^ 8) && negb (n =? 2 ^ 16).
(** The calculated bit lengths count every delimiter header and length prefix: there are no arrays of delimited types, and no
    variants that are delimited or variable-length arrays. *)
Fixpoint counted (m : message) : bool :=
  match m with
  | Message _ (KStruct fs) => forallb (fun f => match f with MPadding _ => true | MData t => type_counted counted t end) fs
  | Message _ (KUnion ts) => tag_right ts && forallb (variant_counted counted) ts
  end.

Definition has_composite (t : rtype message) : bool := match type_scalar t with SComposite _ => true | SPrimitive _ => false end.
Definition variable_composite (t : rtype message) : bool := match t with TVariable (SComposite _) _ => true | _ => false end.
(** every data field selected by [sel] is always at a byte boundary *)
Definition aligned_members (sel : rtype message -> bool) (fs : list (member message)) : bool :=
  forallb (fun x => match x with (flag, MData t) => implb (sel t) flag | (_, MPadding _) => true end) (with_flags None fs).
Definition no_delimited (fs : list (member message)) : bool :=
  forallb (fun f => match f with MPadding _ => true | MData t => sealed (type_scalar t) end) fs.

(** The conditions, for this type alone: if the length is fixed, everything in it is counted, otherwise composites are always
    aligned; variable-length arrays of composites are always aligned; zero-copy structs contain no delimited types; the tag of
    unions has the right width. *)
Definition good_here (m : message) : bool :=
  match fixed_size (bit_length m) with
  | Some _ => counted m
  | None => match m with Message _ (KStruct fs) => aligned_members has_composite fs | Message _ (KUnion _) => true end
  end &&
  match m with
  | Message _ (KStruct fs) => aligned_members variable_composite fs && implb (supports_zero_copy m) (no_delimited fs)
  | Message _ (KUnion ts) => tag_right ts
  end.
Section Deep.
  Context (P : message -> bool).
  Definition scalar_deep (s : scalar message) : bool := match s with SComposite m => P m | SPrimitive _ => true end.
  Definition member_deep (f : member message) : bool := match f with MPadding _ => true | MData t => scalar_deep (type_scalar t) end.
  Definition kind_deep (k : kind message) : bool :=
    match k with KStruct fs => forallb member_deep fs | KUnion ts => forallb (fun t => scalar_deep (type_scalar t)) ts end.
End Deep.
(** ... and for every type in it *)
Fixpoint good (m : message) : bool := good_here m && match m with Message _ k => kind_deep good k end.

(** * Reading back *)

(** Values that survive: signed integers of 8, 16, 32 or 64 bits, or not negative; variable-length arrays of booleans whose length
    is not a multiple of 8, or that fill their bytes. *)
Definition prim_kept (p : prim) (v : value) : bool :=
  match p, v with PInt bits, VSigned z => (round_up_integer_size bits =? bits)%nat || (0 <=? z)%Z | _, _ => true end.
Definition bits_kept (max_len : N) (bits : list bool) : bool :=
  negb (length bits mod 8 =? 0)%nat || (length bits =? 8 * bit_array_bytes max_len)%nat.
Definition kept : message -> value -> bool := fits_gen (fun p v => prim_fits p v && prim_kept p v) bits_kept.
(** Structs that do not end with padding. *)
Definition ends_with_data (fs : list (member message)) : bool :=
  match rev fs with MPadding _ :: _ => false | _ => true end.
Fixpoint readable (m : message) : bool :=
  match m with Message _ k => (match k with KStruct fs => ends_with_data fs | KUnion _ => true end) && kind_deep readable k end.

(** * Decoding any bytes *)

(** What the Rust types hold: signed integers of other widths than 8, 16, 32 and 64 bits are held in the next larger one. *)
Definition prim_stored (p : prim) (v : value) : bool :=
  match p, v with
  | PInt bits, VSigned z => prim_fits (PInt (round_up_integer_size bits)) v
  | _, _ => prim_fits p v
  end.
Definition stored : message -> value -> bool := fits_gen prim_stored (fun _ _ => true).
(** Variable-length arrays of booleans have the greatest possible length for their length prefix. *)
Definition bools_safe (t : rtype message) : bool :=
  match t with TVariable (SPrimitive PBool) max_len => max_len + 1 =? 2 ^ N.of_nat (prefix_bits max_len) | _ => true end.
Definition kind_types (k : kind message) : list (rtype message) :=
  match k with KStruct fs => flat_map (fun f => match f with MPadding _ => [] | MData t => [t] end) fs | KUnion ts => ts end.
Fixpoint safe (m : message) : bool := match m with Message _ k => forallb bools_safe (kind_types k) && kind_deep safe k end.
(** No delimited types inside. *)
Fixpoint sealed_inside (m : message) : bool := match m with Message _ k => forallb (fun t => sealed (type_scalar t)) (kind_types k) && kind_deep sealed_inside k end.
