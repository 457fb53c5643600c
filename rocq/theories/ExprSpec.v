(** Specification of DSDL expressions: what the operators mean on numbers and sets. *)
From Coq Require Import QArith Qpower Qcanon.
From Verif Require Import Base BlsModel BlsSpec GenModel ExprModel.
Open Scope N_scope.

(** The number that an integer is *)
Definition integer (z : Z) : Qc := Q2Qc (z # 1).

(** ** Numbers *)

(** The number that a value can stand for: itself, or the code of a single ASCII character *)
Inductive stands_for : value -> Qc -> Prop :=
| sf_number q : stands_for (VRat q) q
| sf_character c : c < 128 -> stands_for (VStr [c]) (integer (Z.of_N c)).
(** [a op b = c], where it is defined.  A remainder has the sign of the dividend. *)
Inductive calculates : binary -> Qc -> Qc -> Qc -> Prop :=
| ca_add a b : calculates Add a b (a + b)%Qc
| ca_subtract a b : calculates Subtract a b (a - b)%Qc
| ca_multiply a b : calculates Multiply a b (a * b)%Qc
| ca_divide a b c : b <> 0%Qc -> (c * b)%Qc = a -> calculates Divide a b c
| ca_modulo a b k r : b <> 0%Qc -> (a = b * integer k + r)%Qc ->
    (0 <= a -> 0 <= r)%Qc -> (a <= 0 -> r <= 0)%Qc -> (r < b \/ r < - b)%Qc -> (- b < r \/ b < r)%Qc -> calculates Modulo a b r
| ca_power a n : calculates Exponent a (integer (Z.of_nat n)) (Qcpower a n)
| ca_inverse a n : a <> 0%Qc -> calculates Exponent a (integer (- Z.of_nat n)) (/ Qcpower a n)%Qc.
(** Operators on the bits of integers, in two's complement with as many bits as needed *)
Definition bit_of (op : binary) (x y : bool) : bool := match op with BitOr => x || y | BitXor => xorb x y | _ => x && y end.
Definition bitwise_right (op : binary) (a b c : Z) : Prop := forall i, (0 <= i)%Z -> Z.testbit c i = bit_of op (Z.testbit a i) (Z.testbit b i).
(** [a op b] as a statement about numbers *)
Definition compares (op : binary) (a b : Qc) : Prop :=
  match op with
  | Equal => a = b
  | NotEqual => a <> b
  | LessOrEqual => (a <= b)%Qc
  | GreaterOrEqual => (b <= a)%Qc
  | Less => (a < b)%Qc
  | Greater => (b < a)%Qc
  | _ => False
  end.
Definition is_comparison (op : binary) : Prop := In op [Equal; NotEqual; LessOrEqual; GreaterOrEqual; Less; Greater].
Definition is_arithmetic (op : binary) : Prop := In op [Exponent; Multiply; Divide; Modulo; Add; Subtract].
Definition is_bitwise (op : binary) : Prop := In op [BitOr; BitXor; BitAnd].

(** ** Sets of numbers, strings or booleans *)

Definition simple (t : etype) : Prop := t = TRational \/ t = TString \/ t = TBoolean.
(** [v] is a set whose elements have type [t]; it may be a set of bit lengths *)
Definition set_of_type (t : etype) (v : value) : Prop :=
  match v with
  | VSet l => NoDup l /\ Forall (fun x => type_of x = t) l
  | VBls o => t = TRational /\ bls_ok o
  | _ => False
  end.
Definition element (x v : value) : Prop :=
  match v with
  | VSet l => In x l
  | VBls o => exists n, x = VRat (integer (Z.of_N n)) /\ den o n
  | _ => False
  end.
Definition explicit (v : value) : Prop := match v with VSet _ => True | _ => False end.
Definition lengths (v : value) : Prop := match v with VBls _ => True | _ => False end.
(** Sets: union, symmetric difference and intersection *)
Definition combines (op : binary) (p q : Prop) : Prop :=
  match op with BitOr => p \/ q | BitXor => (p /\ ~ q) \/ (q /\ ~ p) | _ => p /\ q end.
(** Sets: inclusion and equality *)
Definition included (v w : value) : Prop := forall x, element x v -> element x w.
Definition compares_sets (op : binary) (v w : value) : Prop :=
  match op with
  | Equal => included v w /\ included w v
  | NotEqual => ~ (included v w /\ included w v)
  | LessOrEqual => included v w
  | GreaterOrEqual => included w v
  | Less => included v w /\ ~ included w v
  | Greater => included w v /\ ~ included v w
  | _ => False
  end.

(** ** Expressions of numbers and booleans *)

Inductive denotes : expr -> value -> Prop :=
| de_number q : denotes (ENumber q) (VRat q)
| de_boolean b : denotes (EBoolean b) (VBool b)
| de_plus e q : denotes e (VRat q) -> denotes (EUnary UnaryPlus e) (VRat q)
| de_minus e q : denotes e (VRat q) -> denotes (EUnary UnaryMinus e) (VRat (- q)%Qc)
| de_not e b : denotes e (VBool b) -> denotes (EUnary UnaryNot e) (VBool (negb b))
| de_arithmetic op e1 e2 a b c : denotes e1 (VRat a) -> denotes e2 (VRat b) -> calculates op a b c -> denotes (EBinary op e1 e2) (VRat c)
| de_bits op e1 e2 a b c : is_bitwise op -> denotes e1 (VRat (integer a)) -> denotes e2 (VRat (integer b)) -> bitwise_right op a b c ->
    denotes (EBinary op e1 e2) (VRat (integer c))
| de_true op e1 e2 a b : is_comparison op -> denotes e1 (VRat a) -> denotes e2 (VRat b) -> compares op a b -> denotes (EBinary op e1 e2) (VBool true)
| de_false op e1 e2 a b : is_comparison op -> denotes e1 (VRat a) -> denotes e2 (VRat b) -> ~ compares op a b -> denotes (EBinary op e1 e2) (VBool false)
| de_same e1 e2 x y : denotes e1 (VBool x) -> denotes e2 (VBool y) -> denotes (EBinary Equal e1 e2) (VBool (eqb x y))
| de_different e1 e2 x y : denotes e1 (VBool x) -> denotes e2 (VBool y) -> denotes (EBinary NotEqual e1 e2) (VBool (negb (eqb x y)))
| de_or e1 e2 x y : denotes e1 (VBool x) -> denotes e2 (VBool y) -> denotes (EBinary LogicalOr e1 e2) (VBool (x || y))
| de_and e1 e2 x y : denotes e1 (VBool x) -> denotes e2 (VBool y) -> denotes (EBinary LogicalAnd e1 e2) (VBool (x && y)).

(** ** Constants *)

(** The value that a constant of a declared type gets, except floating point types *)
Inductive constant_fits : prim -> value -> constant_value -> Prop :=
| cf_boolean b : constant_fits PBool (VBool b) (CBoolean b)
| cf_character c : c < 128 -> constant_fits (PUInt 8) (VStr [c]) (CInt (Z.of_N c))
| cf_signed bits z : (- 2 ^ (Z.of_nat bits - 1) <= z < 2 ^ (Z.of_nat bits - 1))%Z -> constant_fits (PInt bits) (VRat (integer z)) (CInt z)
| cf_unsigned bits z : (0 <= z < 2 ^ Z.of_nat bits)%Z -> constant_fits (PUInt bits) (VRat (integer z)) (CInt z).

(** ** What can go wrong *)

(** Values as the compiler makes them: a set's elements have one type, and lengths fit into 64 bits *)
Fixpoint proper (v : value) : Prop :=
  match v with
  | VSet l => (forall x y, In x l -> In y l -> type_of x = type_of y) /\ (fix all (l : list value) : Prop := match l with [] => True | x :: r => proper x /\ all r end) l
  | VBls o => bls_ok o
  | _ => True
  end.
(** An expression without division, remainder and power, and without _bit_length_ *)
Fixpoint harmless (e : expr) : Prop :=
  match e with
  | ESet es => (fix all (es : list expr) : Prop := match es with [] => True | e :: r => harmless e /\ all r end) es
  | EArray _ _ n => harmless n
  | EUnary _ e => harmless e
  | EAttribute e name => harmless e /\ name <> name_bit_length
  | EBinary op a b => ~ In op [Divide; Modulo; Exponent] /\ harmless a /\ harmless b
  | _ => True
  end.
