(** Model of canadensis_encoding/src/{cursor/serialize,cursor/deserialize,bits,lib}.rs.
    A cursor over a byte slice is the slice with the position; functions taking [&mut self] return the new cursor.
    Panics (assertions, indexing, overflow) are explicit.  Floating-point values are their bit patterns
    ([to_bits], [from_bits]). *)
From Verif Require Import Base.

Definition bind {A B} (x : res A) (f : A -> res B) : res B := match x with Ok a => f a | Panic => Panic end.

(** * Write cursor *)

(** serialize.rs:9-24 [WriteCursor]; [wc_bytes] is the whole slice *)
Record wc := WC { wc_bytes : list N; wc_written : nat; wc_bit : nat }.

(** serialize.rs:28-36 [new]: the slice is cleared *)
Definition wc_new (slice : list N) : wc := WC (map (fun _ => 0) slice) 0 0.

(** serialize.rs:49-51 [is_aligned_to_8_bits] *)
Definition wc_aligned (c : wc) : bool := (wc_bit c =? 0)%nat.

(** serialize.rs:44-46 [remaining_bytes] followed by a change of byte [k] of it *)
Fixpoint list_set (l : list N) (k : nat) (f : N -> N) : res (list N) :=
  match l, k with
  | [], _ => Panic
  | b :: r, O => Ok (f b :: r)
  | b :: r, S k' => match list_set r k' f with Ok r' => Ok (b :: r') | Panic => Panic end
  end.
Definition wc_set (c : wc) (k : nat) (f : N -> N) : res wc :=
  match list_set (wc_bytes c) (wc_written c + k) f with
  | Ok l => Ok (WC l (wc_written c) (wc_bit c))
  | Panic => Panic
  end.

(** serialize.rs:169-173 [check_length] *)
Definition wc_check (c : wc) (bits : nat) : res unit :=
  if (length (wc_bytes c) <? wc_written c)%nat then Panic                                  (* underflow *)
  else if ((wc_bit c + bits) / 8 <=? length (wc_bytes c) - wc_written c)%nat then Ok tt else Panic.

(** serialize.rs:177-183 [advance_bits] *)
Definition wc_advance (c : wc) (bits : nat) : res wc :=
  bind (wc_check c bits) (fun _ =>
  Ok (WC (wc_bytes c) (wc_written c + (wc_bit c + bits) / 8) ((wc_bit c + bits) mod 8))).

(** serialize.rs:185-188 [skip_bits], 593-910 [skip_1] … [skip_64] *)
Definition wc_skip (c : wc) (bits : nat) : res wc := bind (wc_check c bits) (fun _ => wc_advance c bits).

(** serialize.rs:191-195 [align_to_8_bits] *)
Definition wc_align (c : wc) : res wc := if (wc_bit c =? 0)%nat then Ok c else wc_skip c (8 - wc_bit c).

(** serialize.rs:90-118 [write_up_to_u8] *)
Definition write_up_to_u8 (c : wc) (value : N) (bits : nat) : res wc :=
  if (bits =? 0)%nat then Ok c
  else
    bind (wc_check c bits) (fun _ =>
    let mask := w8 (N.shiftl 1 (N.of_nat bits) - 1) in
    let value := N.land value mask in
    let bit := N.of_nat (wc_bit c) in
    bind
      (if (wc_bit c <=? 8 - bits)%nat then wc_set c 0 (fun b => N.lor b (w8 (N.shiftl value bit)))
       else
         let current_bits := w8 (N.shiftl value bit) in
         let next_bits := N.shiftr value (8 - bit) in
         bind (wc_set c 0 (fun b => N.lor b current_bits)) (fun c1 => wc_set c1 1 (fun b => N.lor b next_bits)))
      (fun c1 => wc_advance c1 bits)).

(** serialize.rs:53-64 [write_up_to_u64], 66-76 [write_up_to_u32], 78-88 [write_up_to_u16]: the same code at three types;
    [value] is below 2^64, 2^32, 2^16 *)
Fixpoint write_whole_bytes (c : wc) (value : N) (count : nat) : res (wc * N) :=
  match count with
  | O => Ok (c, value)
  | S k => bind (write_up_to_u8 c (w8 value) 8) (fun c1 => write_whole_bytes c1 (N.shiftr value 8) k)
  end.
Definition write_up_to (c : wc) (value : N) (bits : nat) : res wc :=
  bind (write_whole_bytes c value (bits / 8)) (fun x => write_up_to_u8 (fst x) (w8 (snd x)) (bits mod 8)).

(** serialize.rs:268-588 [write_u1] … [write_u64]: [write_up_to_u8] up to 8 bits, then u16, u32, u64.
    Also 199-214 [write_f16], [write_f32], [write_f64] and 257-259 [write_bool]. *)
Definition write_u (c : wc) (bits : nat) (value : N) : res wc :=
  if (bits <=? 8)%nat then write_up_to_u8 c value bits else write_up_to c value bits.
Definition write_bool (c : wc) (b : bool) : res wc := write_u c 1 (if b then 1 else 0).

(** serialize.rs:227-232 [write_aligned_bytes]; the slice operations panic if there is not enough space.  It does not check the
    alignment. *)
Definition list_write (l : list N) (k : nat) (bs : list N) : list N := firstn k l ++ bs ++ skipn (k + length bs) l.
Definition write_aligned_bytes (c : wc) (bs : list N) : res wc :=
  if (length (wc_bytes c) <? wc_written c)%nat then Panic
  else if (length bs <=? length (wc_bytes c) - wc_written c)%nat then
    wc_advance (WC (list_write (wc_bytes c) (wc_written c) bs) (wc_written c) (wc_bit c)) (8 * length bs)
  else Panic.
(** serialize.rs:120-129 [write_aligned_u8], 131-141 [write_aligned_u16], 143-153 [write_aligned_u32], 155-165
    [write_aligned_u64]: [k] = 1, 2, 4, 8 bytes, least significant first *)
Definition write_aligned (c : wc) (k : nat) (value : N) : res wc :=
  if wc_aligned c then
    if (length (wc_bytes c) <? wc_written c)%nat then Panic
    else if (k <=? length (wc_bytes c) - wc_written c)%nat then
      wc_advance (WC (list_write (wc_bytes c) (wc_written c) (le_bytes k value)) (wc_written c) (wc_bit c)) (8 * k)
    else Panic
  else Panic.

(** serialize.rs:216-221 [write_bytes] *)
Fixpoint write_bytes (c : wc) (bs : list N) : res wc :=
  match bs with [] => Ok c | b :: r => bind (write_u c 8 b) (fun c1 => write_bytes c1 r) end.

(** serialize.rs:235-254 [write_composite].  [delimited]: [T::EXTENT_BYTES.is_some()]; [size_bits] and [serialize] are those
    of the value. *)
Definition write_composite (c : wc) (delimited : bool) (size_bits : nat) (serialize : wc -> res wc) : res wc :=
  bind (wc_align c) (fun c1 =>
  bind (if delimited then
          let size := ((size_bits + 7) / 8)%nat in                                         (* div_ceil *)
          if N.of_nat size <? 2 ^ 32 then write_u c1 32 (N.of_nat size) else Panic         (* expect *)
        else Ok c1) (fun c2 =>
  bind (serialize c2) wc_align)).

(** serialize.rs:262-264 [bits_written] *)
Definition bits_written (c : wc) : nat := (wc_written c * 8 + wc_bit c)%nat.

(** * Read cursor *)

(** deserialize.rs:11-30 [ReadCursor]; [rc_bytes] is what is left of the slice *)
Record rc := RC { rc_bytes : list N; rc_bit : nat }.
(** deserialize.rs:33-38 [new] *)
Definition rc_new (slice : list N) : rc := RC slice 0.
(** deserialize.rs:47-53 [as_bytes] *)
Definition rc_as_bytes (c : rc) : option (list N) := if (rc_bit c =? 0)%nat then Some (rc_bytes c) else None.
(** deserialize.rs:179-187 [read_current], [read_next] *)
Definition read_current (c : rc) : N := match rc_bytes c with b :: _ => b | [] => 0 end.
Definition read_next (c : rc) : N := match rc_bytes c with _ :: b :: _ => b | _ => 0 end.
(** deserialize.rs:201-207 [advance_bytes] *)
Definition advance_bytes (c : rc) (k : nat) : rc := RC (skipn (Nat.min k (length (rc_bytes c))) (rc_bytes c)) (rc_bit c).
(** deserialize.rs:190-195 [advance_bits], 664-984 [skip_1] … [skip_64] *)
Definition rc_advance (c : rc) (bits : nat) : rc :=
  let ext := (rc_bit c + bits)%nat in advance_bytes (RC (rc_bytes c) (ext mod 8)) (ext / 8).
(** deserialize.rs:210-214 [align_to_8_bits], 217-219 [is_aligned_to_8_bits] *)
Definition rc_align (c : rc) : rc := if (rc_bit c =? 0)%nat then c else rc_advance c (8 - rc_bit c).
Definition rc_aligned (c : rc) : bool := (rc_bit c =? 0)%nat.

(** deserialize.rs:56-82 [read_up_to_u8] *)
Definition read_up_to_u8 (c : rc) (bits : nat) : N * rc :=
  if (bits =? 0)%nat then (0, c)
  else
    let bit := N.of_nat (rc_bit c) in
    let value :=
      if (rc_bit c <=? 8 - bits)%nat then N.shiftr (read_current c) bit
      else N.lor (w8 (N.shiftl (read_next c) (8 - bit))) (N.shiftr (read_current c) bit) in
    let mask := w8 (N.shiftl 1 (N.of_nat bits) - 1) in
    (N.land value mask, rc_advance c bits).

(** [x << shift] at a type of [width] bits: overflow of the shift panics *)
Definition shl (width : N) (x shift : N) : res N := if shift <? width then Ok ((N.shiftl x shift) mod 2 ^ width) else Panic.

(** deserialize.rs:84-97 [read_up_to_u16] *)
Definition read_up_to_u16 (c : rc) (bits : nat) : res (N * rc) :=
  let '(value, c1, shift_bits) := if (8 <? bits)%nat then let (v, c1) := read_up_to_u8 c 8 in (v, c1, 8) else (0, c, 0) in
  let (v, c2) := read_up_to_u8 c1 (bits mod 8) in
  bind (shl 16 v shift_bits) (fun s => Ok (N.lor value s, c2)).

(** the loop of [read_up_to_u32] and [read_up_to_u64] *)
Fixpoint read_whole_bytes (width : N) (c : rc) (value shift_bits : N) (count : nat) : res (N * rc * N) :=
  match count with
  | O => Ok (value, c, shift_bits)
  | S k =>
      let (v, c1) := read_up_to_u8 c 8 in
      bind (shl width v shift_bits) (fun s => read_whole_bytes width c1 (N.lor value s) (shift_bits + 8) k)
  end.
(** deserialize.rs:99-112 [read_up_to_u32] *)
Definition read_up_to_u32 (c : rc) (bits : nat) : res (N * rc) :=
  bind (read_whole_bytes 32 c 0 0 (bits / 8)) (fun x =>
  let '(value, c1, shift_bits) := x in
  let (v, c2) := read_up_to_u8 c1 (bits mod 8) in
  bind (shl 32 v shift_bits) (fun s => Ok (N.lor value s, c2))).
(** deserialize.rs:114-129 [read_up_to_u64] *)
Definition read_up_to_u64 (c : rc) (bits : nat) : res (N * rc) :=
  bind (read_whole_bytes 64 c 0 0 (bits / 8)) (fun x =>
  let '(value, c1, shift_bits) := x in
  if (bits =? 64)%nat then Ok (value, c1)
  else let (v, c2) := read_up_to_u8 c1 (bits mod 8) in
       bind (shl 64 v shift_bits) (fun s => Ok (N.lor value s, c2))).

(** deserialize.rs:341-661 [read_u1] … [read_u64]; [read_u16] and [read_u32] use the next larger type and cast.  Also
    221-267 [read_f16], [read_f32], [read_f64] and 304-307 [read_bool] *)
Definition read_u (c : rc) (bits : nat) : res (N * rc) :=
  if (bits <=? 8)%nat then Ok (read_up_to_u8 c bits)
  else if (bits <=? 15)%nat then read_up_to_u16 c bits
  else if (bits =? 16)%nat then bind (read_up_to_u32 c 16) (fun x => Ok (w16 (fst x), snd x))
  else if (bits <=? 31)%nat then read_up_to_u32 c bits
  else if (bits =? 32)%nat then bind (read_up_to_u64 c 32) (fun x => Ok (w32 (fst x), snd x))
  else read_up_to_u64 c bits.
Definition read_bool (c : rc) : res (bool * rc) := bind (read_u c 1) (fun x => Ok (N.eqb (fst x) 1, snd x)).

(** deserialize.rs:131-141 [read_aligned_u8] *)
Definition read_aligned_u8 (c : rc) : res (N * rc) :=
  if rc_aligned c then Ok (read_current c, advance_bytes c 1) else Panic.
(** deserialize.rs:143-153 [read_aligned_u16], 155-165 [read_aligned_u32], 167-177 [read_aligned_u64]: each reads two halves *)
Definition read_two (half : rc -> res (N * rc)) (bits : N) (c : rc) : res (N * rc) :=
  bind (half c) (fun x => bind (half (snd x)) (fun y => Ok (N.lor (N.shiftl (fst y) bits) (fst x), snd y))).
Definition read_aligned_u16 (c : rc) : res (N * rc) := read_two read_aligned_u8 8 c.
Definition read_aligned_u32 (c : rc) : res (N * rc) := read_two read_aligned_u16 16 c.
Definition read_aligned_u64 (c : rc) : res (N * rc) := read_two read_aligned_u32 32 c.

(** deserialize.rs:269-274 [read_bytes] for a slice of [k] bytes *)
Fixpoint read_bytes (c : rc) (k : nat) : res (list N * rc) :=
  match k with
  | O => Ok ([], c)
  | S k' => bind (read_u c 8) (fun x => bind (read_bytes (snd x) k') (fun y => Ok (fst x :: fst y, snd y)))
  end.

(** deserialize.rs:325-338 [fork]: the forked cursor and this one *)
Definition rc_fork (c : rc) (k : nat) : res (rc * rc) :=
  if negb (rc_bit c =? 0)%nat then Panic
  else if (length (rc_bytes c) <? k)%nat then Panic
  else Ok (RC (firstn k (rc_bytes c)) 0, RC (skipn k (rc_bytes c)) (rc_bit c)).

(** lib.rs:98-108 [DeserializeError] *)
Inductive des_error := ArrayLength | UnionTag | DelimitedLength.
Inductive dres (A : Type) := DOk (a : A) | DErr (e : des_error).
Arguments DOk {A} a.
Arguments DErr {A} e.
(** a [deserialize] function *)
Definition deserializer (A : Type) := rc -> res (dres A * rc).

(** deserialize.rs:276-302 [read_composite] *)
Definition read_composite {A} (c : rc) (delimited : bool) (deserialize : deserializer A) : res (dres A * rc) :=
  let c1 := rc_align c in
  bind
    (if delimited then
       bind (read_aligned_u32 c1) (fun x =>
       let (len, c2) := x in
       if N.of_nat (length (rc_bytes c2)) <? len then Ok (DErr DelimitedLength, c2)
       else bind (rc_fork c2 (N.to_nat len)) (fun y =>
            let (forked, c3) := y in
            bind (deserialize forked) (fun z => Ok (fst z, c3))))
     else deserialize c1)
    (fun x => Ok (fst x, rc_align (snd x))).

(** lib.rs:64-81 [deserialize_zero_copy] for a type of [size] bytes: the bytes of the value *)
Definition deserialize_zero_copy (size : nat) (c : rc) : res (list N * rc) :=
  match rc_as_bytes c with
  | None => Panic
  | Some cursor_bytes =>
      let k := Nat.min size (length cursor_bytes) in
      Ok (firstn k cursor_bytes ++ repeat 0 (size - k), advance_bytes c k)
  end.

(** * Bit arrays *)

(** bits.rs:13-17 [BitArray]; [ba_bytes] has the length [BYTES] *)
Record bitarray := BA { ba_bytes : list N; ba_len : nat }.
(** bits.rs:19-26 [new] *)
Definition ba_new (BYTES : nat) (bit_length : nat) : res bitarray :=
  if (bit_length <=? BYTES * 8)%nat then Ok (BA (repeat 0 BYTES) bit_length) else Panic.
(** bits.rs:113-119 [split_index] *)
Definition split_index (a : bitarray) (i : nat) : res (nat * nat) :=
  if (i <? ba_len a)%nat then Ok ((i / 8)%nat, (i mod 8)%nat) else Panic.
(** bits.rs:38-43 [get] *)
Definition ba_get (a : bitarray) (i : nat) : res bool :=
  bind (split_index a i) (fun x =>
  match nth_error (ba_bytes a) (fst x) with
  | None => Panic
  | Some byte => Ok (N.eqb (N.land (N.shiftr byte (N.of_nat (snd x))) 1) 1)
  end).
(** bits.rs:46-55 [set] *)
Definition ba_set (a : bitarray) (i : nat) (value : bool) : res bitarray :=
  bind (split_index a i) (fun x =>
  let mask := N.shiftl 1 (N.of_nat (snd x)) in
  bind (list_set (ba_bytes a) (fst x) (fun b => if value then N.lor b mask else N.land b (N.lxor mask 255)))
       (fun l => Ok (BA l (ba_len a)))).
(** bits.rs:58-64 [fill] *)
Definition ba_fill (a : bitarray) (value : bool) : bitarray :=
  BA (map (fun _ => if value then 255 else 0) (ba_bytes a)) (ba_len a).

(** bits.rs:70-78 [serialize] *)
Fixpoint ba_write_bits (c : wc) (a : bitarray) (i : nat) (count : nat) : res wc :=
  match count with
  | O => Ok c
  | S k => bind (ba_get a i) (fun b => bind (write_bool c b) (fun c1 => ba_write_bits c1 a (S i) k))
  end.
Definition ba_serialize (a : bitarray) (c : wc) : res wc :=
  if (ba_len a =? length (ba_bytes a) * 8)%nat && wc_aligned c then write_aligned_bytes c (ba_bytes a)
  else ba_write_bits c a 0 (ba_len a).

(** bits.rs:82-90 [deserialize_in_place]: [fill_with] calls [read_aligned_u8] for every byte of the array *)
Fixpoint read_aligned_list (c : rc) (k : nat) : res (list N * rc) :=
  match k with
  | O => Ok ([], c)
  | S k' => bind (read_aligned_u8 c) (fun x => bind (read_aligned_list (snd x) k') (fun y => Ok (fst x :: fst y, snd y)))
  end.
Fixpoint ba_read_bits (a : bitarray) (c : rc) (i : nat) (count : nat) : res (bitarray * rc) :=
  match count with
  | O => Ok (a, c)
  | S k => bind (read_bool c) (fun x => bind (ba_set a i (fst x)) (fun a1 => ba_read_bits a1 (snd x) (S i) k))
  end.
Definition ba_deserialize_in_place (a : bitarray) (c : rc) : res (bitarray * rc) :=
  if (ba_len a mod 8 =? 0)%nat && rc_aligned c then
    bind (read_aligned_list c (length (ba_bytes a))) (fun x => Ok (BA (fst x) (ba_len a), snd x))
  else ba_read_bits a c 0 (ba_len a).
(** bits.rs:95-99 [deserialize] *)
Definition ba_deserialize (BYTES bit_length : nat) (c : rc) : res (bitarray * rc) :=
  bind (ba_new BYTES bit_length) (fun a => ba_deserialize_in_place a c).

(** bits.rs:102-107, 147-158 [iter]: the bits as a list *)
Fixpoint ba_bits_from (a : bitarray) (i count : nat) : res (list bool) :=
  match count with
  | O => Ok []
  | S k => bind (ba_get a i) (fun b => bind (ba_bits_from a (S i) k) (fun r => Ok (b :: r)))
  end.
Definition ba_iter (a : bitarray) : res (list bool) := ba_bits_from a 0 (ba_len a).

(** bits.rs:200-214 [eq] *)
Fixpoint bools_eqb (l r : list bool) : bool :=
  match l, r with
  | a :: l', b :: r' => if negb (Bool.eqb a b) then false else bools_eqb l' r'
  | _, _ => true
  end.
Definition ba_eq (a b : bitarray) : res bool :=
  if (ba_len a =? ba_len b)%nat then bind (ba_iter a) (fun l => bind (ba_iter b) (fun r => Ok (bools_eqb l r)))
  else Ok false.
(** bits.rs:230-251 [compare] *)
Fixpoint bools_compare (l r : list bool) : comparison :=
  match l, r with
  | true :: _, false :: _ => Gt
  | false :: _, true :: _ => Lt
  | _ :: l', _ :: r' => bools_compare l' r'
  | _, _ => Eq
  end.
Definition ba_compare (a b : bitarray) : res comparison :=
  match Nat.compare (ba_len a) (ba_len b) with
  | Eq => bind (ba_iter a) (fun l => bind (ba_iter b) (fun r => Ok (bools_compare l r)))
  | o => Ok o
  end.
