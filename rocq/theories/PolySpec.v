(** Cyclic redundancy checks as remainders of polynomials over GF(2).  A polynomial is the number whose bit [i] is the coefficient of x^i, so
    that the sum of polynomials is [N.lxor], and multiplication by x^i is [N.shiftl]. *)
From Verif Require Import Base.

(** The product, by Horner's rule. *)
Fixpoint product_pos (p : positive) (g : N) : N :=
  match p with
  | xH => g
  | xO p' => N.shiftl (product_pos p' g) 1
  | xI p' => N.lxor g (N.shiftl (product_pos p' g) 1)
  end.
Definition product (q g : N) : N := match q with 0 => 0 | Npos p => product_pos p g end.
(** [r] is the remainder of [m] on division by [g]: a multiple of [g] plus [r], of lower degree. *)
Definition remainder (g m r : N) : Prop := r < 2 ^ N.log2 g /\ exists q, m = N.lxor (product q g) r.

(** The bytes of a message as the coefficients of a polynomial, highest first. *)
Definition polynomial (bytes : list N) : N := fold_left (fun m b => N.lxor (N.shiftl m 8) b) bytes 0.
(** What is divided for a check of [w] bits: the message, followed by [w] zeros, with the initial value added to the first [w] bits. *)
Definition preset (w initial : N) (bytes : list N) : N :=
  N.lxor (N.shiftl (polynomial bytes) w) (N.shiftl initial (8 * N.of_nat (length bytes))).

(** The lowest [n] bits in reverse order. *)
Fixpoint reversed (n : nat) (v : N) : N := match n with O => 0 | S m => N.lxor (N.shiftl (N.b2n (N.testbit v 0)) (N.of_nat m)) (reversed m (N.shiftr v 1)) end.
