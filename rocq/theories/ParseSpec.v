(** Specification of how DSDL files are written (sections 3.2 and 3.3 of the Cyphal specification). *)
From Coq Require Import QArith Qcanon String.
From Verif Require Import Base GenModel ExprModel TextModel TextSpec PkgModel PkgSpec CompModel ParseModel.
Open Scope list_scope.
Open Scope N_scope.

Definition blank (w : text) : Prop := Forall (fun c => c = 32 \/ c = 9) w.
Definition space (w : text) : Prop := blank w /\ w <> [].

(** How tightly the parts of an expression are bound, and what is bound one step tighter *)
Inductive level := Logical | Negation | Comparison | Bitwise | Sum | Product | Sign | Power | Postfix | Atom.
Definition tighter (l : level) : level :=
  match l with
  | Logical => Negation | Negation => Comparison | Comparison => Bitwise | Bitwise => Sum | Sum => Product | Product => Sign
  | Sign => Power | Power => Postfix | Postfix => Atom | Atom => Atom
  end.
(** The operators that associate to the left *)
Definition operators (l : level) : list (binary * string) :=
  (match l with
  | Logical => [(LogicalOr, "||"); (LogicalAnd, "&&")]
  | Comparison => [(Equal, "=="); (NotEqual, "!="); (LessOrEqual, "<="); (GreaterOrEqual, ">="); (Less, "<"); (Greater, ">")]
  | Bitwise => [(BitOr, "|"); (BitXor, "^"); (BitAnd, "&")]
  | Sum => [(Add, "+"); (Subtract, "-")]
  | Product => [(Multiply, "*"); (Divide, "/"); (Modulo, "%")]
  | _ => []
  end)%string.

(** * Words *)

(** Digits do not start with zero, unless all are *)
Definition no_leading_zero (t : text) : Prop := (exists c r, t = c :: r /\ c <> 48) \/ Forall (fun c => c = 48 \/ c = 95) t.
Definition version_number (t : text) (n : N) : Prop := denotes_number t n /\ no_leading_zero t /\ n < 256.
Definition width (t : text) (n : N) : Prop := denotes_number t n /\ (exists c r, t = c :: r /\ c <> 48) /\ 1 <= n <= 64.
Definition float_of (n : N) (p : prim) : Prop := In (n, p) [(16, PFloat16); (32, PFloat32); (64, PFloat64)].
(** The name of a primitive type, perhaps with how values are converted to it *)
Inductive cast_word : text -> bool -> Prop :=
| cw_default : cast_word [] false
| cw_saturated w : space w -> cast_word (name_of "saturated" ++ w) false
| cw_truncated w : space w -> cast_word (name_of "truncated" ++ w) true.
Inductive primitive_name : prim -> text -> Prop :=
| pn_bool : primitive_name PBool (name_of "bool")
| pn_utf8 : primitive_name PUtf8 (name_of "utf8")
| pn_byte : primitive_name PByte (name_of "byte")
| pn_uint c truncated t n : cast_word c truncated -> width t n -> primitive_name (PUInt (N.to_nat n)) (c ++ name_of "uint" ++ t)
| pn_int c t n : cast_word c false -> width t n -> primitive_name (PInt (N.to_nat n)) (c ++ name_of "int" ++ t)
| pn_float c truncated t n p : cast_word c truncated -> width t n -> float_of n p -> primitive_name p (c ++ name_of "float" ++ t).
Fixpoint dotted (names : list text) : text :=
  match names with [] => [] | [n] => n | n :: r => n ++ [46] ++ dotted r end.
Inductive scalar_name : tscalar -> text -> Prop :=
| sn_primitive p t : primitive_name p t -> scalar_name (Primitive p) t
| sn_void t n : width t n -> scalar_name (Void n) (name_of "void" ++ t)
| sn_versioned path name t1 n1 t2 n2 : Forall identifier (path ++ [name]) -> version_number t1 n1 -> version_number t2 n2 ->
    scalar_name (Versioned (Key path name n1 n2)) (dotted (path ++ [name]) ++ [46] ++ t1 ++ [46] ++ t2).

(** The characters between quotation marks: a backslash and the next one belong together *)
Inductive quotable (q : N) : text -> Prop :=
| qu_nil : quotable q []
| qu_plain c t : c <> q -> c <> 92 -> quotable q t -> quotable q (c :: t)
| qu_escape c t : c <> 10 -> c <> 13 -> quotable q t -> quotable q (92 :: c :: t).
(** Words that are read as types or truth values wherever they start an expression *)
Inductive starts_like_a_keyword : text -> Prop :=
| sk_word w r : In w (map name_of ["bool"; "utf8"; "byte"; "true"; "false"]%string) -> starts_like_a_keyword (w ++ r)
| sk_type w c r : In w (map name_of ["uint"; "int"; "float"; "void"]%string) -> 49 <= c <= 57 -> starts_like_a_keyword (w ++ c :: r).

Definition point_text (p : point_notation) : text := match p with Fraction f => 46 :: f | Point w => w ++ [46] | PointFraction w f => w ++ 46 :: f end.
Definition mantissa_text (m : point_notation + text) : text := match m with inl p => point_text p | inr t => t end.
(** 1 and not 1. or 0x1 *)
Definition decimal_text (t : text) : Prop := exists ds, numeral 10 t ds.

(** * Expressions and types *)

Section Strict.
(** With [strict], only what the parser can be relied upon to read; without, also what it may accept *)
Context (strict : bool).

Inductive number_text : text -> Qc -> Prop :=
| nt_integer k t n : integer_literal k t n -> (k = Decimal -> no_leading_zero t) -> number_text t (Q2Qc (Z.of_N n # 1))
| nt_point p v q : point_literal p v -> (strict = true -> plain p) -> (plain p -> q = Q2Qc v) -> number_text (point_text p) q
| nt_exponent m v e sign t ds q : mantissa m v -> In e [101; 69] -> In sign [ []; [43]; [45] ] -> numeral 10 t ds ->
    (strict = true -> plain_mantissa m) ->
    (plain_mantissa m -> q = Q2Qc (v * Qpower (10 # 1) (if list_eq_dec N.eq_dec sign [45%N] then - Z.of_N (number 10 ds) else Z.of_N (number 10 ds)))%Q) ->
    number_text (mantissa_text m ++ e :: sign ++ t) q.

(** An expression at a level: what is bound at least so tightly *)
Inductive spelled : level -> expr -> text -> Prop :=
| sp_tighter l e t : l <> Atom -> spelled (tighter l) e t -> spelled l e t
| sp_binary l op o a ta w1 w2 b tb : In (op, o) (operators l) -> spelled l a ta -> blank w1 -> blank w2 -> spelled (tighter l) b tb ->
    spelled l (EBinary op a b) (ta ++ w1 ++ name_of o ++ w2 ++ tb)
| sp_not w e t : blank w -> spelled Negation e t -> spelled Negation (EUnary UnaryNot e) (name_of "!" ++ w ++ t)
| sp_plus w e t : blank w -> spelled Power e t -> spelled Sign (EUnary UnaryPlus e) (name_of "+" ++ w ++ t)
| sp_minus w e t : blank w -> spelled Power e t -> spelled Sign (EUnary UnaryMinus e) (name_of "-" ++ w ++ t)
| sp_power a ta w1 w2 b tb : spelled Postfix a ta -> blank w1 -> blank w2 -> spelled Sign b tb ->
    spelled Power (EBinary Exponent a b) (ta ++ w1 ++ name_of "**" ++ w2 ++ tb)
| sp_attribute e t w1 w2 name : spelled Postfix e t -> blank w1 -> blank w2 -> identifier name -> (strict = true -> decimal_text t -> w1 <> []) ->
    spelled Postfix (EAttribute e name) (t ++ w1 ++ name_of "." ++ w2 ++ name)
| sp_parentheses e t w1 w2 : blank w1 -> spelled Logical e t -> blank w2 -> spelled Atom e (name_of "(" ++ w1 ++ t ++ w2 ++ name_of ")")
| sp_number t q : number_text t q -> spelled Atom (ENumber q) t
| sp_string q t s : In q [34; 39] -> quotable q t -> (strict = true \/ ~ In 43 t -> unescapes t s) -> spelled Atom (EString s) (q :: t ++ [q])
| sp_true : spelled Atom (EBoolean true) (name_of "true")
| sp_false : spelled Atom (EBoolean false) (name_of "false")
| sp_name name : identifier name -> (strict = true -> ~ starts_like_a_keyword name) -> spelled Atom (EIdentifier name) name
| sp_set w1 es t w2 : blank w1 -> elements es t -> blank w2 -> spelled Atom (ESet es) (name_of "{" ++ w1 ++ t ++ w2 ++ name_of "}")
| sp_scalar s t : scalar_name s t -> spelled Atom (EScalar s) t
| sp_array s k n t : array_text s k n t -> spelled Atom (EArray s k n) t
with elements : list expr -> text -> Prop :=
| el_none : elements [] []
| el_one e t : spelled Logical e t -> elements [e] t
| el_more e t w1 w2 es ts : spelled Logical e t -> blank w1 -> blank w2 -> elements es ts -> es <> [] -> elements (e :: es) (t ++ w1 ++ name_of "," ++ w2 ++ ts)
with array_text : tscalar -> array_kind -> expr -> text -> Prop :=
| at_array s t w1 w2 k o w3 n tn w4 : scalar_name s t -> blank w1 -> blank w2 -> In (k, o) [(AInclusive, "<="); (AExclusive, "<"); (AFixed, "")]%string -> blank w3 -> spelled Logical n tn -> blank w4 ->
    array_text s k n (t ++ w1 ++ name_of "[" ++ w2 ++ name_of o ++ w3 ++ tn ++ w4 ++ name_of "]").
Inductive type_text : stype -> text -> Prop :=
| tt_scalar s t : scalar_name s t -> type_text (TypeScalar s) t
| tt_array s k n t : array_text s k n t -> type_text (TypeArray s k n) t.

(** * Files *)

Definition directive_names : list (directive * string) :=
  [(DUnion, "union"); (DExtent, "extent"); (DSealed, "sealed"); (DDeprecated, "deprecated"); (DAssert, "assert"); (DPrint, "print")]%string.
Definition directive_name (d : directive) (name : text) : Prop :=
  (exists s, In (d, s) directive_names /\ name = name_of s) \/ (d = DOther /\ forall d' s, In (d', s) directive_names -> name <> name_of s).
(** No single utf8 or byte, no fixed number of utf8 *)
Definition field_type (t : stype) : Prop :=
  t <> TypeScalar (Primitive PUtf8) /\ t <> TypeScalar (Primitive PByte) /\ forall n, t <> TypeArray (Primitive PUtf8) AFixed n.
Inductive statement_text : statement -> text -> Prop :=
| st_directive d name : directive_name d name -> identifier name -> statement_text (SDirective d None) (name_of "@" ++ name)
| st_directive_of d name w e t : directive_name d name -> identifier name -> space w -> spelled Logical e t -> statement_text (SDirective d (Some e)) (name_of "@" ++ name ++ w ++ t)
| st_marker more : Forall (fun c => c = 45) more -> statement_text SMarker (name_of "---" ++ more)
| st_constant p tp w1 name w2 w3 e t : primitive_name p tp -> space w1 -> identifier name -> blank w2 -> blank w3 -> spelled Logical e t ->
    statement_text (SConstant p name e) (tp ++ w1 ++ name ++ w2 ++ name_of "=" ++ w3 ++ t)
| st_field ty t w name : type_text ty t -> field_type ty -> space w -> identifier name -> statement_text (SField ty name) (t ++ w ++ name)
| st_padding t n : width t n -> statement_text (SPadding n) (name_of "void" ++ t).
Inductive statement_part : list item -> text -> Prop :=
| sp_no_statement : statement_part [] []
| sp_statement st t : statement_text st t -> statement_part [IStatement st] t.
Inductive comment_part : list item -> text -> Prop :=
| cp_no_comment : comment_part [] []
| cp_comment t : ~ In 13 t -> ~ In 10 t -> comment_part [IComment t] (name_of "#" ++ t).
(** A line: perhaps a statement, perhaps a comment.  A statement starts at the start of its line. *)
Inductive line_text : list item -> text -> Prop :=
| lt_line i1 t1 w i2 t2 : statement_part i1 t1 -> blank w -> comment_part i2 t2 -> line_text (i1 ++ i2) (t1 ++ w ++ t2).
(** A file: lines with an end of line between them *)
Inductive file_text : list item -> text -> Prop :=
| ft_last i t : line_text i t -> file_text i t
| ft_line i1 t1 eol i2 t2 : line_text i1 t1 -> In eol [ [10]; [13; 10] ] -> file_text i2 t2 -> file_text (i1 ++ i2) (t1 ++ eol ++ t2).
End Strict.

(** * Operators *)
Definition symbol (op : binary) : string :=
  (match op with
  | Exponent => "**" | Multiply => "*" | Divide => "/" | Modulo => "%" | Add => "+" | Subtract => "-" | BitOr => "|" | BitXor => "^" | BitAnd => "&"
  | Equal => "==" | NotEqual => "!=" | LessOrEqual => "<=" | GreaterOrEqual => ">=" | Less => "<" | Greater => ">" | LogicalOr => "||" | LogicalAnd => "&&"
  end)%string.
(** Table 3.9: the stronger operator takes the operand between two *)
Definition strength (op : binary) : nat :=
  match op with
  | LogicalOr | LogicalAnd => 1
  | Equal | NotEqual | LessOrEqual | GreaterOrEqual | Less | Greater => 2
  | BitOr | BitXor | BitAnd => 3
  | Add | Subtract => 4
  | Multiply | Divide | Modulo => 5
  | Exponent => 6
  end%nat.
(** a [o1] b [o2] c; of equally strong operators the first takes it, except of powers *)
Definition grouped (o1 o2 : binary) (a b c : expr) : expr :=
  if ((strength o1 <? strength o2) || ((strength o1 =? 6) && (strength o2 =? 6)))%nat then EBinary o1 a (EBinary o2 b c) else EBinary o2 (EBinary o1 a b) c.

(** * Lines *)
Definition remark (c : text) : Prop := c = [] \/ exists t, c = name_of "#" ++ t /\ ~ In 13 t /\ ~ In 10 t.
Definition newline (eol : text) : Prop := eol = [10] \/ eol = [13; 10].
(** Statements, one on a line, with remarks and empty lines anywhere *)
Inductive laid_out : list text -> text -> Prop :=
| lo_end w c : blank w -> remark c -> laid_out [] (w ++ c)
| lo_last x w c : blank w -> remark c -> laid_out [x] (x ++ w ++ c)
| lo_empty w c eol xs t : blank w -> remark c -> newline eol -> laid_out xs t -> laid_out xs (w ++ c ++ eol ++ t)
| lo_line x w c eol xs t : blank w -> remark c -> newline eol -> laid_out xs t -> laid_out (x :: xs) (x ++ w ++ c ++ eol ++ t).
