(** Which expressions cannot make the compiler panic (C90).  Nothing here depends on how operators are applied. *)
From Coq Require Import QArith Qcanon.
From Verif Require Import Base BlsModel BlsSpec ExprModel.
Open Scope N_scope.

(** [part a e]: [a] is [e] or occurs in it *)
Inductive part : expr -> expr -> Prop :=
| part_self : forall e, part e e
| part_set : forall a e es, In e es -> part a e -> part a (ESet es)
| part_array : forall a t k n, part a n -> part a (EArray t k n)
| part_unary : forall a u e, part a e -> part a (EUnary u e)
| part_attribute : forall a e name, part a e -> part a (EAttribute e name)
| part_left : forall a op l r, part a l -> part a (EBinary op l r)
| part_right : forall a op l r, part a r -> part a (EBinary op l r).

(** The numbers that an operator meets in an operand: the operand, its code if it is a character, its elements *)
Inductive number_in : value -> Qc -> Prop :=
| number_self : forall q, number_in (VRat q) q
| number_char : forall c, c < 128 -> number_in (VStr [c]) (Q2Qc (Z.of_N c # 1))
| number_element : forall l q, In (VRat q) l -> number_in (VSet l) q
| number_length : forall o n, den o n -> number_in (VBls o) (Q2Qc (Z.of_N n # 1)).

(** What an operator needs of its operands: no division by zero, zero is not raised to a negative integer; lengths are divided by numbers
    up to 2^31 *)
Definition careful_operands (op : binary) (v w : value) : Prop :=
  match op with
  | Divide => forall q, number_in w q -> q <> 0%Qc
  | Modulo => (forall q, number_in w q -> q <> 0%Qc) /\
              (forall o n, v = VBls o -> w = VRat (Q2Qc (Z.of_N n # 1)) -> n <= 2 ^ 31 /\ bls_small o)
  | Exponent => forall z, number_in v 0%Qc -> number_in w (Q2Qc (z # 1)) -> (0 <= z)%Z
  | _ => True
  end.

(** What evaluating [a] in state [s] needs; [evaluate] evaluates *)
Definition careful {S} (evaluate : expr -> S -> out (value * S)) (a : expr) (s : S) : Prop :=
  match a with
  | EBinary op l r => forall v s1 w s2, evaluate l s = Done (v, s1) -> evaluate r s1 = Done (w, s2) -> careful_operands op v w
  | EAttribute _ name => name = name_bit_length -> forall o s1, evaluate a s = Done (VBls o, s1) -> bls_ok o
  | _ => True
  end.
