(** Specification of the bit-level encoding. *)
From Verif Require Import Base EncModel.

(** Bit [i] of a byte sequence: bytes in order, least significant bit first; zero past the end. *)
Definition stream_bit (bs : list N) (i : nat) : bool := N.testbit (nth (i / 8) bs 0) (N.of_nat (i mod 8)).
(** The low [n] bits of a number, least significant first, and the number of a list of bits. *)
Definition bits_of (n : nat) (v : N) : list bool := map (fun j => N.testbit v (N.of_nat j)) (seq 0 n).
Definition value_of (bits : list bool) : N := fold_right (fun b v => N.b2n b + 2 * v) 0 bits.
(** The number in [n] bits from bit [p] on. *)
Definition field (bs : list N) (p n : nat) : N := value_of (map (stream_bit bs) (seq p n)).

(** What can be written with a cursor.  A composite value is what its [serialize] function writes. *)
Inductive wop :=
| WField (n : nat) (v : N)                 (* write_u1 ... write_u64 *)
| WBool (b : bool)
| WSkip (n : nat)
| WAlign
| WAligned (k : nat) (v : N)               (* write_aligned_u8 (k = 1), u16, u32, u64 *)
| WBytes (bs : list N)
| WAlignedBytes (bs : list N)
| WBits (a : bitarray)
| WComposite (delimited : bool) (size_bits : nat) (body : list wop).

Fixpoint wstep (c : wc) (op : wop) {struct op} : res wc :=
  match op with
  | WField n v => write_u c n v
  | WBool b => write_bool c b
  | WSkip n => wc_skip c n
  | WAlign => wc_align c
  | WAligned k v => write_aligned c k v
  | WBytes bs => write_bytes c bs
  | WAlignedBytes bs => write_aligned_bytes c bs
  | WBits a => ba_serialize a c
  | WComposite delimited size body =>
      write_composite c delimited size
        (fun c' => (fix run (c : wc) (ops : list wop) : res wc :=
                      match ops with [] => Ok c | op :: r => bind (wstep c op) (fun c1 => run c1 r) end) c' body)
  end.
Fixpoint wrun (c : wc) (ops : list wop) : res wc :=
  match ops with [] => Ok c | op :: r => bind (wstep c op) (fun c1 => wrun c1 r) end.

(** The zero bits needed to get from bit position [p] to a multiple of 8. *)
Definition pad8 (p : nat) : list bool := repeat false ((8 - p mod 8) mod 8).

(** The bits of an operation at bit position [p]: bytes least significant bit first; alignment and skipped bits are zero;
    a composite is aligned, has its length in bytes in front (32 bits) if it is delimited, and is padded to whole
    bytes. *)
Fixpoint pack (p : nat) (op : wop) {struct op} : list bool :=
  match op with
  | WField n v => bits_of n v
  | WBool b => [b]
  | WSkip n => repeat false n
  | WAlign => pad8 p
  | WAligned k v => bits_of (8 * k) v
  | WBytes bs => flat_map (bits_of 8) bs
  | WAlignedBytes bs => flat_map (bits_of 8) bs
  | WBits a => map (stream_bit (ba_bytes a)) (seq 0 (ba_len a))
  | WComposite delimited size body =>
      let p1 := (p + length (pad8 p))%nat in
      let inner := (fix packs (p : nat) (ops : list wop) : list bool :=
                      match ops with [] => [] | op :: r => let b := pack p op in b ++ packs (p + length b)%nat r end)
                   (if delimited then (p1 + 32)%nat else p1) body in
      let content := inner ++ pad8 (p1 + length inner) in
      pad8 p ++ (if delimited then bits_of 32 (N.of_nat (length content / 8)) else []) ++ content
  end.
Fixpoint packs (p : nat) (ops : list wop) : list bool :=
  match ops with [] => [] | op :: r => let b := pack p op in b ++ packs (p + length b) r end.

(** Bit arrays as the code builds them: [BYTES] bytes hold at least [bit_length] bits. *)
Definition ba_ok (a : bitarray) : Prop := bytes_ok (ba_bytes a) /\ (ba_len a <= 8 * length (ba_bytes a))%nat.

(** What the Rust types and documentation ask for: widths 1 to 64 (or what the API has), byte values, aligned writes only when
    aligned, [size_bits] is the number of bits that [serialize] writes (up to whole bytes), at most 2^32 - 1 bytes. *)
Fixpoint wop_ok (p : nat) (op : wop) {struct op} : Prop :=
  match op with
  | WField n v => (1 <= n <= 64)%nat
  | WBool _ | WSkip _ | WAlign => True
  | WAligned k v => (p mod 8 = 0)%nat
  | WBytes bs => bytes_ok bs
  | WAlignedBytes bs => bytes_ok bs /\ (p mod 8 = 0)%nat
  | WBits a => ba_ok a
  | WComposite delimited size body =>
      let p1 := (p + length (pad8 p))%nat in
      let start := if delimited then (p1 + 32)%nat else p1 in
      (fix ok (p : nat) (ops : list wop) : Prop :=
         match ops with [] => True | op :: r => wop_ok p op /\ ok (p + length (pack p op))%nat r end) start body /\
      (delimited = true -> ((size + 7) / 8 = (length (packs start body) + 7) / 8)%nat /\ N.of_nat size < 8 * (2 ^ 32 - 1))
  end.
Fixpoint wops_ok (p : nat) (ops : list wop) : Prop :=
  match ops with [] => True | op :: r => wop_ok p op /\ wops_ok (p + length (pack p op)) r end.

(** What can be read, and the values read. *)
Inductive rop :=
| RField (n : nat)
| RBool
| RSkip (n : nat)
| RAlign
| RAligned (k : nat)                       (* read_aligned_u8 (k = 1), u16, u32, u64 *)
| RBytes (k : nat)
| RZeroCopy (k : nat).                     (* deserialize_zero_copy of a type of [k] bytes *)
Definition ropval (x : res (N * rc)) : res (list N * rc) := bind x (fun y => Ok ([fst y], snd y)).
Definition rstep (c : rc) (op : rop) : res (list N * rc) :=
  match op with
  | RField n => ropval (read_u c n)
  | RBool => bind (read_bool c) (fun x => Ok ([N.b2n (fst x)], snd x))
  | RSkip n => Ok ([], rc_advance c n)
  | RAlign => Ok ([], rc_align c)
  | RAligned 1 => ropval (read_aligned_u8 c)
  | RAligned 2 => ropval (read_aligned_u16 c)
  | RAligned 4 => ropval (read_aligned_u32 c)
  | RAligned _ => ropval (read_aligned_u64 c)
  | RBytes k => read_bytes c k
  | RZeroCopy k => deserialize_zero_copy k c
  end.
Fixpoint rrun (c : rc) (ops : list rop) : res (list N * rc) :=
  match ops with
  | [] => Ok ([], c)
  | op :: r => bind (rstep c op) (fun x => bind (rrun (snd x) r) (fun y => Ok (fst x ++ fst y, snd y)))
  end.

(** The same on the infinite bit stream: number of bits used at position [p], and the values. *)
Definition rwidth (p : nat) (op : rop) : nat :=
  match op with
  | RField n => n
  | RBool => 1
  | RSkip n => n
  | RAlign => length (pad8 p)
  | RAligned k => 8 * k
  | RBytes k => 8 * k
  | RZeroCopy k => 8 * k
  end.
Definition rvalues (bs : list N) (p : nat) (op : rop) : list N :=
  match op with
  | RField n => [field bs p n]
  | RBool => [field bs p 1]
  | RSkip _ | RAlign => []
  | RAligned k => [field bs p (8 * k)]
  | RBytes k => map (fun i => field bs (p + 8 * i) 8) (seq 0 k)
  | RZeroCopy k => map (fun i => field bs (p + 8 * i) 8) (seq 0 k)
  end.
Fixpoint rwidths (p : nat) (ops : list rop) : nat :=
  match ops with [] => O | op :: r => (rwidth p op + rwidths (p + rwidth p op) r)%nat end.
Fixpoint rvaluess (bs : list N) (p : nat) (ops : list rop) : list N :=
  match ops with [] => [] | op :: r => rvalues bs p op ++ rvaluess bs (p + rwidth p op) r end.
Fixpoint rops_ok (p : nat) (ops : list rop) : Prop :=
  match ops with
  | [] => True
  | op :: r =>
      match op with
      | RField n => (1 <= n <= 64)%nat
      | RAligned k => (p mod 8 = 0)%nat /\ In k [1; 2; 4; 8]%nat
      | RZeroCopy k => (p mod 8 = 0)%nat
      | _ => True
      end /\ rops_ok (p + rwidth p op) r
  end.

(** The cursor at bit position [p] of a slice. *)
Definition rc_at (bs : list N) (p : nat) : rc := RC (skipn (p / 8) bs) (p mod 8).

(** Reading back what was written: the read calls that match the write calls, and the values expected from them. *)
Definition dval (x : res (N * rc)) : res (dres (list N) * rc) := bind x (fun y => Ok (DOk [fst y], snd y)).
Definition dseq (d1 d2 : deserializer (list N)) : deserializer (list N) :=
  fun c =>
    bind (d1 c) (fun x =>
    match fst x with
    | DErr e => Ok (DErr e, snd x)
    | DOk v => bind (d2 (snd x)) (fun y => match fst y with DErr e => Ok (DErr e, snd y) | DOk w => Ok (DOk (v ++ w), snd y) end)
    end).
Definition read_bits (BYTES len : nat) (c : rc) : res (dres (list N) * rc) :=
  bind (ba_deserialize BYTES len c) (fun x => bind (ba_iter (fst x)) (fun l => Ok (DOk (map N.b2n l), snd x))).
Fixpoint rback (op : wop) : deserializer (list N) :=
  match op with
  | WField n _ => fun c => dval (read_u c n)
  | WBool _ => fun c => bind (read_bool c) (fun x => Ok (DOk [N.b2n (fst x)], snd x))
  | WSkip n => fun c => Ok (DOk [], rc_advance c n)
  | WAlign => fun c => Ok (DOk [], rc_align c)
  | WAligned k _ => fun c => dval (match k with 1 => read_aligned_u8 c | 2 => read_aligned_u16 c | 4 => read_aligned_u32 c | _ => read_aligned_u64 c end)%nat
  | WBytes bs => fun c => bind (read_bytes c (length bs)) (fun x => Ok (DOk (fst x), snd x))
  | WAlignedBytes bs => fun c => bind (deserialize_zero_copy (length bs) c) (fun x => Ok (DOk (fst x), snd x))
  | WBits a => read_bits (length (ba_bytes a)) (ba_len a)
  | WComposite delimited _ body =>
      fun c => read_composite c delimited
        ((fix run (ops : list wop) : deserializer (list N) :=
            match ops with [] => fun c => Ok (DOk [], c) | op :: r => dseq (rback op) (run r) end) body)
  end.
Fixpoint rbacks (ops : list wop) : deserializer (list N) :=
  match ops with [] => fun c => Ok (DOk [], c) | op :: r => dseq (rback op) (rbacks r) end.

Fixpoint wvals (op : wop) : list N :=
  match op with
  | WField n v => [v mod 2 ^ N.of_nat n]
  | WBool b => [N.b2n b]
  | WSkip _ | WAlign => []
  | WAligned k v => [v mod 2 ^ N.of_nat (8 * k)]
  | WBytes bs => bs
  | WAlignedBytes bs => bs
  | WBits a => map (fun i => N.b2n (stream_bit (ba_bytes a) i)) (seq 0 (ba_len a))
  | WComposite _ _ body => (fix go (ops : list wop) : list N := match ops with [] => [] | op :: r => wvals op ++ go r end) body
  end.
Fixpoint wvalss (ops : list wop) : list N := match ops with [] => [] | op :: r => wvals op ++ wvalss r end.

(** For reading back: the aligned calls exist for 1, 2, 4 and 8 bytes only, and (see [C41_refuted]) a bit array whose length
    is a multiple of 8 and that starts at a byte boundary must fill its bytes. *)
Fixpoint wop_ok_back (p : nat) (op : wop) {struct op} : Prop :=
  match op with
  | WAligned k v => In k [1; 2; 4; 8]%nat
  | WBits a => (ba_len a mod 8 = 0)%nat -> (p mod 8 = 0)%nat -> ba_len a = (8 * length (ba_bytes a))%nat
  | WComposite delimited size body =>
      let p1 := (p + length (pad8 p))%nat in
      let start := if delimited then (p1 + 32)%nat else p1 in
      (fix ok (p : nat) (ops : list wop) : Prop :=
         match ops with [] => True | op :: r => wop_ok_back p op /\ ok (p + length (pack p op))%nat r end) start body
  | _ => True
  end.
Fixpoint wops_ok_back (p : nat) (ops : list wop) : Prop :=
  match ops with [] => True | op :: r => wop_ok_back p op /\ wops_ok_back (p + length (pack p op)) r end.
