(** Specification of the literals of DSDL (sections 3.2.3 and 3.3 of the Cyphal specification). *)
From Coq Require Import QArith Qcanon String Ascii.
From Verif Require Import Base TextModel.
Open Scope N_scope.

(** Text as Coq writes it *)
Definition str (s : string) : list N := map N_of_ascii (list_ascii_of_string s).

(** A digit of the base and its value *)
Inductive is_digit (base : N) : N -> N -> Prop :=
| di_decimal d : d < 10 -> d < base -> is_digit base (48 + d) d
| di_lower d : 10 <= d < 16 -> d < base -> is_digit base (97 + (d - 10)) d
| di_upper d : 10 <= d < 16 -> d < base -> is_digit base (65 + (d - 10)) d.
(** The digits of a numeral, most significant first, which may be separated by single underscores. *)
Inductive numeral (base : N) : list N -> list N -> Prop :=
| nu_digit c d : is_digit base c d -> numeral base [c] [d]
| nu_more text ds c d : numeral base text ds -> is_digit base c d -> numeral base (text ++ [c]) (ds ++ [d])
| nu_underscore text ds c d : numeral base text ds -> is_digit base c d -> numeral base (text ++ [95; c]) (ds ++ [d]).
(** The number that digits denote: digit [i] from the right counts [base ^ i]. *)
Fixpoint number (base : N) (ds : list N) : N :=
  match ds with [] => 0 | d :: r => d * base ^ N.of_nat (length r) + number base r end.
(** Behind a prefix like 0x there may be an underscore. *)
Definition behind_prefix (base : N) (text ds : list N) : Prop := numeral base text ds \/ exists t, text = 95 :: t /\ numeral base t ds.
(** An integer literal and the number it denotes *)
Inductive integer_literal : integer_kind -> list N -> N -> Prop :=
| il_binary x text ds : x = 98 \/ x = 66 -> behind_prefix 2 text ds -> integer_literal Binary (48 :: x :: text) (number 2 ds)
| il_octal x text ds : x = 111 \/ x = 79 -> behind_prefix 8 text ds -> integer_literal Octal (48 :: x :: text) (number 8 ds)
| il_hexadecimal x text ds : x = 120 \/ x = 88 -> behind_prefix 16 text ds -> integer_literal Hexadecimal (48 :: x :: text) (number 16 ds)
| il_decimal text ds : numeral 10 text ds -> integer_literal Decimal text (number 10 ds).

(** The number with these digits before and behind the point *)
Definition decimal (whole fraction : list N) : Q :=
  Qdiv (Z.of_N (number 10 (whole ++ fraction)) # 1) (Qpower (10 # 1) (Z.of_nat (length fraction))).
Inductive point_literal : point_notation -> Q -> Prop :=
| pl_fraction text ds : numeral 10 text ds -> point_literal (Fraction text) (decimal [] ds)
| pl_point text ds : numeral 10 text ds -> point_literal (Point text) (decimal ds [])
| pl_both t1 d1 t2 d2 : numeral 10 t1 d1 -> numeral 10 t2 d2 -> point_literal (PointFraction t1 t2) (decimal d1 d2).
(** Notations that the code reads rightly: with digits before the point, and no underscores behind it *)
Definition plain (p : point_notation) : Prop :=
  match p with Fraction _ => False | Point _ => True | PointFraction _ fraction => ~ In 95 fraction end.
Definition mantissa (before : point_notation + list N) (q : Q) : Prop :=
  match before with inl p => point_literal p q | inr text => exists ds, numeral 10 text ds /\ q = (Z.of_N (number 10 ds) # 1)%Q end.
Definition plain_mantissa (before : point_notation + list N) : Prop := match before with inl p => plain p | inr _ => True end.

(** * Strings *)

(** Unicode scalar values *)
Definition is_char (c : N) : Prop := c < 0xd800 \/ 0xe000 <= c < 0x110000.
Definition hexadecimal (text : list N) (n : N) : Prop := exists ds, Forall2 (is_digit 16) text ds /\ n = number 16 ds.
(** Table 3.4: escape sequences *)
Definition simple_escape (c x : N) : Prop := In (c, x) [(92, 92); (114, 13); (110, 10); (116, 9); (39, 39); (34, 34)].
Inductive unescapes : list N -> list N -> Prop :=
| un_nil : unescapes [] []
| un_plain c text out : c <> 92 -> unescapes text out -> unescapes (c :: text) (c :: out)
| un_simple c x text out : simple_escape c x -> unescapes text out -> unescapes (92 :: c :: text) (x :: out)
| un_u4 ds n text out : length ds = 4%nat -> hexadecimal ds n -> is_char n -> unescapes text out -> unescapes (92 :: 117 :: ds ++ text) (n :: out)
| un_u8 ds n text out : length ds = 8%nat -> hexadecimal ds n -> is_char n -> unescapes text out -> unescapes (92 :: 85 :: ds ++ text) (n :: out).
