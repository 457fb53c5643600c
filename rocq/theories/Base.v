(** Integers, bytes and list helpers shared by all models. *)
From Coq Require Export NArith ZArith Arith List Bool Lia.
From Coq Require Export ZifyBool ZifyNat ZifyN.
Export ListNotations.
Open Scope N_scope.

(** A byte, as every Rust [u8] is. *)
Definition is_byte (b : N) : Prop := b < 256.
Definition bytes_ok (l : list N) : Prop := Forall is_byte l.

(** A computation that may panic.  [Panic] is a Rust panic (overflow check, failed assertion, [unwrap]). *)
Inductive res (A : Type) : Type :=
| Ok (a : A)
| Panic.
Arguments Ok {A} a.
Arguments Panic {A}.

(** [u8/u16/u32/u64] truncation. *)
Definition w8 (n : N) : N := n mod 2 ^ 8.
Definition w16 (n : N) : N := n mod 2 ^ 16.
Definition w32 (n : N) : N := n mod 2 ^ 32.
Definition w64 (n : N) : N := n mod 2 ^ 64.

(** Little-endian and big-endian byte forms ([to_le_bytes], [to_be_bytes], [from_le_bytes]). *)
Fixpoint le_bytes (k : nat) (n : N) : list N :=
  match k with
  | O => []
  | S k' => (n mod 256) :: le_bytes k' (n / 256)
  end.
Fixpoint from_le (l : list N) : N :=
  match l with
  | [] => 0
  | b :: r => b + 256 * from_le r
  end.
Definition be_bytes (k : nat) (n : N) : list N := rev (le_bytes k n).

(** The [u32] wrap-around clock of the third-party crate [fugit] (assumed, see DESIGN.md). *)
Definition t_sub (a b : N) : N := (a + 2 ^ 32 - b) mod 2 ^ 32.       (* wrapping_sub *)
Definition t_add (a d : N) : N := (a + d) mod 2 ^ 32.                (* Instant + Duration *)
Definition t_lt (a b : N) : bool :=
  if N.eqb a b then false else N.ltb (2 ^ 31 - 1) (t_sub a b).
(** [checked_duration_since] *)
Definition t_since (now past : N) : option N :=
  if t_lt now past then None else Some (t_sub now past).

Fixpoint repeatn {A} (n : nat) (f : A -> A) (a : A) : A :=
  match n with O => a | S k => repeatn k f (f a) end.
