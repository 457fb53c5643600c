(** Model of the parser of DSDL files: canadensis_dsdl_parser/src/{dsdl.pest,lib.rs,ast.rs}.

    - The grammar is interpreted by a third-party crate, pest.  Here it is interpreted by [run], with the documented meaning of a pest grammar: a
      parsing expression grammar with ordered choice and greedy repetition, where every rule that is not silent makes a pair.  There are no rules
      named WHITESPACE or COMMENT, so nothing is skipped implicitly.
    - Characters are code points.  Positions in the text and what an error says are left out; so are cast modes.
    - A parenthesized expression is the expression inside, as in [ExprModel]. *)
From Coq Require Import QArith Qcanon String.
From Verif Require Import Base GenModel ExprModel TextModel PkgModel CompModel.
Open Scope list_scope.
Open Scope N_scope.

(** * Grammars *)

(** The rules of dsdl.pest, in the same order, and the built-in rule EOI *)
Inductive rule :=
| definition | line | comment | comment_content | end_of_line | ws | identifier_
| statement_ | statement_attribute | statement_constant | statement_field | statement_padding_field | statement_service_response_marker
| statement_directive | statement_directive_with_expression | statement_directive_without_expression
| dtype_ | type_array | type_array_variable_inclusive | type_array_variable_exclusive | type_array_fixed
| type_scalar | type_versioned | type_version_specifier
| type_primitive | type_primitive_truncated | type_primitive_saturated | type_primitive_bool
| type_primitive_name | type_primitive_name_boolean | type_primitive_name_utf8 | type_primitive_name_byte
| type_primitive_name_unsigned_integer | type_primitive_name_signed_integer | type_primitive_name_floating_point
| type_void | type_bit_length_suffix
| expression | expression_list | expression_parenthesized | expression_atom
| ex_logical | ex_logical_not | ex_comparison | ex_bitwise | ex_additive | ex_multiplicative | ex_inversion | ex_exponential | ex_attribute
| op1_form_log_not | op1_form_inv_pos | op1_form_inv_neg
| op2_log | op2_log_or | op2_log_and
| op2_cmp | op2_cmp_equ | op2_cmp_neq | op2_cmp_leq | op2_cmp_geq | op2_cmp_lss | op2_cmp_grt
| op2_bit | op2_bit_or | op2_bit_xor | op2_bit_and
| op2_add | op2_add_add | op2_add_sub
| op2_mul | op2_mul_mul | op2_mul_div | op2_mul_mod
| op2_exp | op2_exp_pow | op2_attrib
| literal | literal_set
| literal_integer | literal_integer_binary | literal_integer_octal | literal_integer_hexadecimal | literal_integer_decimal
| literal_real | literal_real_exponent_notation | literal_real_point_notation | literal_real_fraction | literal_real_exponent | literal_real_digits
| literal_string | literal_string_single_quoted | literal_string_double_quoted
| literal_boolean | literal_boolean_true | literal_boolean_false
| EOI.

(** Parsing expressions: "text", 'a'..'z', ANY, the end of the input, a ~ b, a | b, a*, a?, !a and the name of a rule *)
Inductive peg :=
| PStr (t : text) | PRange (lo hi : N) | PAny | PEnd
| PSeq (a b : peg) | PAlt (a b : peg) | PStar (a : peg) | POpt (a : peg) | PNot (a : peg) | PRef (r : rule).
(** a+ *)
Definition PSome (a : peg) : peg := PSeq a (PStar a).
Definition lit (s : string) : peg := PStr (name_of s).
Declare Scope peg_scope.
Delimit Scope peg_scope with peg.
Bind Scope peg_scope with peg.
Infix "~~" := PSeq (at level 54, right associativity) : peg_scope.
Infix "//" := PAlt (at level 55, right associativity) : peg_scope.
Notation "a ^*" := (PStar a) (at level 53, format "a ^*") : peg_scope.
Notation "a ^+" := (PSome a) (at level 53, format "a ^+") : peg_scope.
Notation "a ^?" := (POpt a) (at level 53, format "a ^?") : peg_scope.
Coercion PRef : rule >-> peg.

(** Whether a rule is silent, and its expression.  SOI is left out: it is at the start. *)
Definition silent (r : rule) : bool :=
  match r with
  | definition | line | comment | end_of_line | ws | statement_ | statement_attribute | ex_logical_not | ex_inversion => true
  | _ => false
  end.
Definition letter : peg := (PRange 97 122 // PRange 65 90)%peg.
Definition digit09 : peg := PRange 48 57.
Definition ws_opt : peg := (PRef ws ^?)%peg.
Definition quoted (q : N) : peg :=
  (PStr [q] ~~ (PNot (PStr [q] // PStr [92]) ~~ PAny)^* ~~
   (PStr [92] ~~ (PNot (PStr [13] // PStr [10]) ~~ PAny) ~~ (PNot (PStr [q] // PStr [92]) ~~ PAny)^*)^* ~~ PStr [q])%peg.
Definition grammar (r : rule) : peg :=
  (match r with
  | definition => line ~~ (end_of_line ~~ line)^* ~~ EOI
  | line => (PRef statement_)^? ~~ ws_opt ~~ (PRef comment)^?
  | comment => lit "#" ~~ comment_content
  | comment_content => (PNot (PStr [13] // PStr [10]) ~~ PAny)^*
  | end_of_line => (PStr [13])^? ~~ PStr [10]
  | ws => (lit " " // PStr [9])^+
  | identifier_ => (PRange 97 122 // PRange 65 90 // lit "_") ~~ (PRange 97 122 // PRange 65 90 // digit09 // lit "_")^*
  | statement_ => statement_directive // statement_service_response_marker // statement_attribute
  | statement_attribute => statement_constant // statement_field // statement_padding_field
  | statement_constant => type_primitive ~~ ws ~~ identifier_ ~~ ws_opt ~~ lit "=" ~~ ws_opt ~~ expression
  | statement_field => dtype_ ~~ ws ~~ identifier_
  | statement_padding_field => type_void ~~ lit ""
  | statement_service_response_marker => lit "---" ~~ (lit "-")^*
  | statement_directive => statement_directive_with_expression // statement_directive_without_expression
  | statement_directive_with_expression => lit "@" ~~ identifier_ ~~ ws ~~ expression
  | statement_directive_without_expression => lit "@" ~~ identifier_
  | dtype_ => type_array // type_scalar
  | type_array => type_array_variable_inclusive // type_array_variable_exclusive // type_array_fixed
  | type_array_variable_inclusive => type_scalar ~~ ws_opt ~~ lit "[" ~~ ws_opt ~~ lit "<=" ~~ ws_opt ~~ expression ~~ ws_opt ~~ lit "]"
  | type_array_variable_exclusive => type_scalar ~~ ws_opt ~~ lit "[" ~~ ws_opt ~~ lit "<" ~~ ws_opt ~~ expression ~~ ws_opt ~~ lit "]"
  | type_array_fixed => type_scalar ~~ ws_opt ~~ lit "[" ~~ ws_opt ~~ expression ~~ ws_opt ~~ lit "]"
  | type_scalar => type_versioned // type_primitive // type_void
  | type_versioned => identifier_ ~~ (lit "." ~~ identifier_)^* ~~ lit "." ~~ type_version_specifier
  | type_version_specifier => literal_integer_decimal ~~ lit "." ~~ literal_integer_decimal
  | type_primitive => type_primitive_truncated // type_primitive_saturated // type_primitive_bool // type_primitive_name_utf8 // type_primitive_name_byte
  | type_primitive_truncated => lit "truncated" ~~ ws ~~ type_primitive_name
  | type_primitive_saturated => (lit "saturated" ~~ ws)^? ~~ type_primitive_name
  | type_primitive_bool => type_primitive_name_boolean
  | type_primitive_name => type_primitive_name_unsigned_integer // type_primitive_name_signed_integer // type_primitive_name_floating_point
  | type_primitive_name_boolean => lit "bool"
  | type_primitive_name_utf8 => lit "utf8"
  | type_primitive_name_byte => lit "byte"
  | type_primitive_name_unsigned_integer => lit "uint" ~~ type_bit_length_suffix
  | type_primitive_name_signed_integer => lit "int" ~~ type_bit_length_suffix
  | type_primitive_name_floating_point => lit "float" ~~ type_bit_length_suffix
  | type_void => lit "void" ~~ type_bit_length_suffix
  | type_bit_length_suffix => PRange 49 57 ~~ digit09^*
  | expression => ex_logical
  | expression_list => (expression ~~ (ws_opt ~~ lit "," ~~ ws_opt ~~ expression)^*)^?
  | expression_parenthesized => lit "(" ~~ ws_opt ~~ expression ~~ ws_opt ~~ lit ")"
  | expression_atom => expression_parenthesized // dtype_ // literal // identifier_
  | ex_logical => ex_logical_not ~~ (ws_opt ~~ op2_log ~~ ws_opt ~~ ex_logical_not)^*
  | ex_logical_not => op1_form_log_not // ex_comparison
  | ex_comparison => ex_bitwise ~~ (ws_opt ~~ op2_cmp ~~ ws_opt ~~ ex_bitwise)^*
  | ex_bitwise => ex_additive ~~ (ws_opt ~~ op2_bit ~~ ws_opt ~~ ex_additive)^*
  | ex_additive => ex_multiplicative ~~ (ws_opt ~~ op2_add ~~ ws_opt ~~ ex_multiplicative)^*
  | ex_multiplicative => ex_inversion ~~ (ws_opt ~~ op2_mul ~~ ws_opt ~~ ex_inversion)^*
  | ex_inversion => op1_form_inv_pos // op1_form_inv_neg // ex_exponential
  | ex_exponential => ex_attribute ~~ (ws_opt ~~ op2_exp ~~ ws_opt ~~ ex_inversion)^?
  | ex_attribute => expression_atom ~~ (ws_opt ~~ op2_attrib ~~ ws_opt ~~ identifier_)^*
  | op1_form_log_not => lit "!" ~~ ws_opt ~~ ex_logical_not
  | op1_form_inv_pos => lit "+" ~~ ws_opt ~~ ex_exponential
  | op1_form_inv_neg => lit "-" ~~ ws_opt ~~ ex_exponential
  | op2_log => op2_log_or // op2_log_and
  | op2_log_or => lit "||"
  | op2_log_and => lit "&&"
  | op2_cmp => op2_cmp_equ // op2_cmp_geq // op2_cmp_leq // op2_cmp_neq // op2_cmp_lss // op2_cmp_grt
  | op2_cmp_equ => lit "=="
  | op2_cmp_neq => lit "!="
  | op2_cmp_leq => lit "<="
  | op2_cmp_geq => lit ">="
  | op2_cmp_lss => lit "<"
  | op2_cmp_grt => lit ">"
  | op2_bit => op2_bit_or // op2_bit_xor // op2_bit_and
  | op2_bit_or => lit "|"
  | op2_bit_xor => lit "^"
  | op2_bit_and => lit "&"
  | op2_add => op2_add_add // op2_add_sub
  | op2_add_add => lit "+"
  | op2_add_sub => lit "-"
  | op2_mul => op2_mul_mul // op2_mul_div // op2_mul_mod
  | op2_mul_mul => lit "*"
  | op2_mul_div => lit "/"
  | op2_mul_mod => lit "%"
  | op2_exp => op2_exp_pow
  | op2_exp_pow => lit "**"
  | op2_attrib => lit "."
  | literal => literal_set // literal_real // literal_integer // literal_string // literal_boolean
  | literal_set => lit "{" ~~ ws_opt ~~ expression_list ~~ ws_opt ~~ lit "}"
  | literal_integer => literal_integer_binary // literal_integer_octal // literal_integer_hexadecimal // literal_integer_decimal
  | literal_integer_binary => lit "0" ~~ (lit "b" // lit "B") ~~ ((lit "_")^? ~~ (lit "0" // lit "1"))^+
  | literal_integer_octal => lit "0" ~~ (lit "o" // lit "O") ~~ ((lit "_")^? ~~ PRange 48 55)^+
  | literal_integer_hexadecimal => lit "0" ~~ (lit "x" // lit "X") ~~ ((lit "_")^? ~~ (digit09 // PRange 97 102 // PRange 65 70))^+
  | literal_integer_decimal => (lit "0" ~~ ((lit "_")^? ~~ lit "0")^*)^+ // PRange 49 57 ~~ ((lit "_")^? ~~ digit09)^*
  | literal_real => literal_real_exponent_notation // literal_real_point_notation
  | literal_real_exponent_notation => (literal_real_point_notation // literal_real_digits) ~~ literal_real_exponent
  | literal_real_point_notation => ((PRef literal_real_digits)^? ~~ literal_real_fraction) // (literal_real_digits ~~ lit ".")
  | literal_real_fraction => lit "." ~~ literal_real_digits
  | literal_real_exponent => (lit "e" // lit "E") ~~ (lit "+" // lit "-")^? ~~ literal_real_digits
  | literal_real_digits => digit09 ~~ ((lit "_")^? ~~ digit09)^*
  | literal_string => literal_string_single_quoted // literal_string_double_quoted
  | literal_string_single_quoted => quoted 39
  | literal_string_double_quoted => quoted 34
  | literal_boolean => literal_boolean_true // literal_boolean_false
  | literal_boolean_true => lit "true"
  | literal_boolean_false => lit "false"
  | EOI => PEnd
  end)%peg.

(** * Matching *)

(** A pair of pest: the rule, the text it matched, and the pairs inside *)
Inductive tree := Node (r : rule) (matched : text) (children : list tree).
Inductive outcome := Match (pairs : list tree) (rest : text) | NoMatch | Unfinished.

Fixpoint strip (t s : text) : option text :=
  match t, s with
  | [], _ => Some s
  | x :: t', y :: s' => if x =? y then strip t' s' else None
  | _ :: _, [] => None
  end.
(** The text before [rest] *)
Definition consumed (s rest : text) : text := firstn (length s - length rest) s.
(** pest, generated code *)
Fixpoint run (fuel : nat) (p : peg) (s : text) : outcome :=
  match fuel with
  | O => Unfinished
  | S f =>
      match p with
      | PStr t => match strip t s with Some rest => Match [] rest | None => NoMatch end
      | PRange lo hi => match s with c :: rest => if (lo <=? c) && (c <=? hi) then Match [] rest else NoMatch | [] => NoMatch end
      | PAny => match s with _ :: rest => Match [] rest | [] => NoMatch end
      | PEnd => match s with [] => Match [] [] | _ :: _ => NoMatch end
      | PSeq a b => match run f a s with
                    | Match ts rest => match run f b rest with Match us rest' => Match (ts ++ us) rest' | x => x end
                    | x => x
                    end
      | PAlt a b => match run f a s with NoMatch => run f b s | x => x end
      | PStar a => match run f a s with
                   | Match ts rest => match run f (PStar a) rest with Match us rest' => Match (ts ++ us) rest' | x => x end
                   | NoMatch => Match [] s
                   | Unfinished => Unfinished
                   end
      | POpt a => match run f a s with NoMatch => Match [] s | x => x end
      | PNot a => match run f a s with NoMatch => Match [] s | Match _ _ => NoMatch | Unfinished => Unfinished end
      | PRef r => match run f (grammar r) s with
                  | Match ts rest => Match (if silent r then ts else [Node r (consumed s rest) ts]) rest
                  | x => x
                  end
      end
  end.
(** More than enough for a text of this length (proved) *)
Definition enough (s : text) : nat := (4000 + 4000 * length s)%nat.

(** * From pairs to statements (ast.rs).  [Crash] is a failed [unwrap], [expect], [assert!] or [unreachable!]. *)

Definition tree_rule (t : tree) : rule := match t with Node r _ _ => r end.
Definition tree_text (t : tree) : text := match t with Node _ x _ => x end.
Definition children (t : tree) : list tree := match t with Node _ _ cs => cs end.
(** ast.rs:280-287 [get_deepest_rule] *)
Fixpoint deepest (t : tree) : rule := match t with Node r _ [] => r | Node _ _ (c :: _) => deepest c end.

(** [str::parse::<u8>] *)
Definition parse_u8 (t : text) : option N :=
  let d := match t with 43 :: r => r | _ => t end in
  match d with
  | [] => None
  | _ => if forallb digit d then (let n := fold_left (fun n c => 10 * n + (c - 48)) d 0 in if n <? 256 then Some n else None) else None
  end.
(** ast.rs:718-726 [parse_bit_length_suffix], valid_integer_length *)
Definition parse_suffix (t : tree) : out N := of_option (parse_u8 (tree_text t)).
Definition between_1_and_64 (n : N) : bool := (1 <=? n) && (n <=? 64).
(** ast.rs:655-716 [parse_primitive_type_name], [parse_integer_type] *)
Definition parse_primitive_type_name (truncated : bool) (t : tree) : out prim :=
  match t with
  | Node type_primitive_name _ (Node kind _ (suffix :: _) :: _) =>
      match kind with
      | type_primitive_name_unsigned_integer => obind (parse_suffix suffix) (fun n => if between_1_and_64 n then Done (PUInt (N.to_nat n)) else Fail)
      | type_primitive_name_signed_integer =>
          obind (parse_suffix suffix) (fun n => if between_1_and_64 n then if truncated then Fail else Done (PInt (N.to_nat n)) else Fail)
      | type_primitive_name_floating_point =>
          obind (parse_suffix suffix) (fun n => if n =? 16 then Done PFloat16 else if n =? 32 then Done PFloat32 else if n =? 64 then Done PFloat64 else Fail)
      | _ => Crash
      end
  | _ => Crash
  end.
(** ast.rs:626-653 [parse_primitive_type], [parse_boolean_type]; [next_back] *)
Definition parse_primitive_type (t : tree) : out prim :=
  match t with
  | Node type_primitive _ (Node type_primitive_truncated _ cs :: _) => match rev cs with name :: _ => parse_primitive_type_name true name | [] => Crash end
  | Node type_primitive _ (Node type_primitive_saturated _ cs :: _) => match rev cs with name :: _ => parse_primitive_type_name false name | [] => Crash end
  | Node type_primitive _ (Node type_primitive_bool _ (Node type_primitive_name_boolean _ _ :: _) :: _) => Done PBool
  | Node type_primitive _ (Node type_primitive_name_utf8 _ _ :: _) => Done PUtf8
  | Node type_primitive _ (Node type_primitive_name_byte _ _ :: _) => Done PByte
  | _ => Crash
  end.
(** ast.rs:338-371 [parse_versioned_type], [parse_version_digits]: the names before the version *)
Fixpoint parse_versioned (names : list text) (cs : list tree) : out tscalar :=
  match cs with
  | Node identifier_ name _ :: r => parse_versioned (names ++ [name]) r
  | Node type_version_specifier _ (major :: minor :: _) :: _ =>
      obind (of_option (parse_u8 (tree_text major))) (fun a => obind (of_option (parse_u8 (tree_text minor))) (fun b =>
      match rev names with name :: path => Done (Versioned (Key (rev path) name a b)) | [] => Crash end))
  | _ => Crash
  end.
(** ast.rs:315-336 [parse_scalar_type] *)
Definition parse_scalar_type (t : tree) : out tscalar :=
  match t with
  | Node type_scalar _ (Node type_versioned _ cs :: _) => parse_versioned [] cs
  | Node type_scalar _ (Node type_primitive x cs :: _) => obind (parse_primitive_type (Node type_primitive x cs)) (fun p => Done (Primitive p))
  | Node type_scalar _ (Node type_void _ (suffix :: _) :: _) => obind (parse_suffix suffix) (fun n => if between_1_and_64 n then Done (Void n) else Fail)
  | _ => Crash
  end.

(** ast.rs:467-503 [parse_real_point_notation]: the children of the pair *)
Definition point_of (cs : list tree) : out point_notation :=
  match cs with
  | [w] => Done (Point (tree_text w))
  | w :: Node _ _ (d :: _) :: _ => Done (PointFraction (tree_text w) (tree_text d))
  | _ => Crash
  end.
Definition of_notation (x : res (option Qc)) : out Qc := match x with Ok (Some q) => Done q | Ok None => Fail | Panic => Crash end.
(** ast.rs:431-465 [parse_real_literal], [parse_real_exponent_notation] *)
Definition parse_real_literal (t : tree) : out Qc :=
  match children t with
  | Node literal_real_exponent_notation _ (b :: e :: _) :: _ =>
      match nth_error (tree_text e) 1, children e with
      | Some sign, digits :: _ =>
          match b with
          | Node literal_real_point_notation _ cs => obind (point_of cs) (fun p => of_notation (parse_real_exponent_notation (inl p) sign (tree_text digits)))
          | Node literal_real_digits x _ => of_notation (parse_real_exponent_notation (inr x) sign (tree_text digits))
          | _ => Crash
          end
      | _, _ => Crash
      end
  | Node literal_real_point_notation _ cs :: _ => obind (point_of cs) (fun p => of_option (parse_real_point_notation p))
  | _ => Crash
  end.
(** ast.rs:522-531 [parse_integer_literal] *)
Definition integer_rule (r : rule) : option integer_kind :=
  match r with
  | literal_integer_binary => Some Binary
  | literal_integer_octal => Some Octal
  | literal_integer_hexadecimal => Some Hexadecimal
  | literal_integer_decimal => Some Decimal
  | _ => None
  end.
Definition parse_integer (t : tree) : out Qc :=
  match children t with
  | Node r x _ :: _ => match integer_rule r with
                       | Some k => obind (of_res (parse_integer_literal k x)) (fun n => Done (rational_of n))
                       | None => Crash
                       end
  | [] => Crash
  end.
(** ast.rs:506-520 [parse_string_literal], [is_quote] *)
Definition is_quote (c : N) : bool := (c =? 34) || (c =? 39).
Definition parse_string (t : tree) : out text :=
  match children t with
  | Node _ (q :: x) _ :: _ =>
      match rev x with
      | q' :: y => if is_quote q && is_quote q' then of_option (unescape_string (rev y)) else Crash
      | [] => Crash
      end
  | _ => Crash
  end.

(** ast.rs:169-221: what the operators are called *)
Definition log_op (r : rule) : option binary := match r with op2_log_or => Some LogicalOr | op2_log_and => Some LogicalAnd | _ => None end.
Definition cmp_op (r : rule) : option binary :=
  match r with
  | op2_cmp_equ => Some Equal | op2_cmp_neq => Some NotEqual | op2_cmp_leq => Some LessOrEqual | op2_cmp_geq => Some GreaterOrEqual
  | op2_cmp_lss => Some Less | op2_cmp_grt => Some Greater | _ => None
  end.
Definition bit_op (r : rule) : option binary := match r with op2_bit_or => Some BitOr | op2_bit_xor => Some BitXor | op2_bit_and => Some BitAnd | _ => None end.
Definition add_op (r : rule) : option binary := match r with op2_add_add => Some Add | op2_add_sub => Some Subtract | _ => None end.
Definition mul_op (r : rule) : option binary := match r with op2_mul_mul => Some Multiply | op2_mul_div => Some Divide | op2_mul_mod => Some Modulo | _ => None end.
Definition exp_op (r : rule) : option binary := match r with op2_exp_pow => Some Exponent | _ => None end.

Section Recursion.
Context (parse : tree -> out expr).
(** ast.rs:248-276 [parse_binary_op]: what follows the first operand *)
Fixpoint binary_rest (op : rule -> option binary) (e : expr) (cs : list tree) : out expr :=
  match cs with
  | [] => Done e
  | [_] => Crash
  | o :: c :: r => obind (parse c) (fun rhs => match op (deepest o) with Some b => binary_rest op (EBinary b e rhs) r | None => Crash end)
  end.
Definition binary_op (op : rule -> option binary) (cs : list tree) : out expr :=
  match cs with c :: r => obind (parse c) (fun e => binary_rest op e r) | [] => Crash end.
(** ast.rs:206-224 *)
Fixpoint attribute_rest (e : expr) (cs : list tree) : out expr :=
  match cs with
  | [] => Done e
  | Node op2_attrib _ _ :: Node identifier_ name _ :: r => attribute_rest (EAttribute e name) r
  | _ => Crash
  end.
Definition unary_op (u : unary) (cs : list tree) : out expr := match cs with c :: _ => obind (parse c) (fun e => Done (EUnary u e)) | [] => Crash end.
(** ast.rs:373-395 [parse_array_type], 306-313 [parse_data_type] *)
Definition array_rule (r : rule) : option array_kind :=
  match r with
  | type_array_variable_inclusive => Some AInclusive
  | type_array_variable_exclusive => Some AExclusive
  | type_array_fixed => Some AFixed
  | _ => None
  end.
Definition parse_data_type (cs : list tree) : out stype :=
  match cs with
  | Node type_array _ (Node r _ (element :: length :: _) :: _) :: _ =>
      obind (parse_scalar_type element) (fun s => obind (parse length) (fun e =>
      match array_rule r with Some k => Done (TypeArray s k e) | None => Crash end))
  | Node type_scalar x cs :: _ => obind (parse_scalar_type (Node type_scalar x cs)) (fun s => Done (TypeScalar s))
  | _ => Crash
  end.
Fixpoint parse_all (cs : list tree) : out (list expr) :=
  match cs with [] => Done [] | c :: r => obind (parse c) (fun e => obind (parse_all r) (fun es => Done (e :: es))) end.
(** ast.rs:397-429 [parse_literal] *)
Definition parse_literal (t : tree) : out expr :=
  match t with
  | Node literal_set _ (Node _ _ es :: _) => obind (parse_all es) (fun l => Done (ESet l))
  | Node literal_real _ _ => obind (parse_real_literal t) (fun q => Done (ENumber q))
  | Node literal_integer _ _ => obind (parse_integer t) (fun q => Done (ENumber q))
  | Node literal_string _ _ => obind (parse_string t) (fun s => Done (EString s))
  | Node literal_boolean _ (Node literal_boolean_true _ _ :: _) => Done (EBoolean true)
  | Node literal_boolean _ (Node literal_boolean_false _ _ :: _) => Done (EBoolean false)
  | _ => Crash
  end.
Definition type_expr (t : stype) : expr := match t with TypeScalar s => EScalar s | TypeArray s k n => EArray s k n end.
(** ast.rs:289-304 [parse_expression_atom] *)
Definition parse_atom (t : tree) : out expr :=
  match t with
  | Node expression_parenthesized _ (c :: _) => parse c
  | Node dtype_ _ cs => obind (parse_data_type cs) (fun t => Done (type_expr t))
  | Node literal _ (c :: _) => parse_literal c
  | Node identifier_ name _ => Done (EIdentifier name)
  | _ => Crash
  end.
End Recursion.
(** ast.rs:153-246 [parse_expression] *)
Fixpoint parse_expression (t : tree) : out expr :=
  match t with
  | Node expression _ [c] => parse_expression c
  | Node expression_atom _ (c :: _) => parse_atom parse_expression c
  | Node ex_logical _ cs => binary_op parse_expression log_op cs
  | Node ex_comparison _ cs => binary_op parse_expression cmp_op cs
  | Node ex_bitwise _ cs => binary_op parse_expression bit_op cs
  | Node ex_additive _ cs => binary_op parse_expression add_op cs
  | Node ex_multiplicative _ cs => binary_op parse_expression mul_op cs
  | Node ex_exponential _ cs => binary_op parse_expression exp_op cs
  | Node ex_attribute _ (c :: r) => obind (parse_expression c) (fun e => attribute_rest e r)
  | Node op1_form_log_not _ cs => unary_op parse_expression UnaryNot cs
  | Node op1_form_inv_pos _ cs => unary_op parse_expression UnaryPlus cs
  | Node op1_form_inv_neg _ cs => unary_op parse_expression UnaryMinus cs
  | _ => Crash
  end.

(** * Statements *)

(** ast/types.rs [Statement]: [CompModel.statement] or a comment *)
Inductive item := IStatement (st : statement) | IComment (t : text).
(** canadensis_dsdl_frontend/src/types/directive.rs:8-150: the directives by name *)
Definition directive_of (name : text) : directive :=
  if text_eqb name (name_of "union") then DUnion else if text_eqb name (name_of "extent") then DExtent
  else if text_eqb name (name_of "sealed") then DSealed else if text_eqb name (name_of "deprecated") then DDeprecated
  else if text_eqb name (name_of "assert") then DAssert else if text_eqb name (name_of "print") then DPrint else DOther.
(** ast.rs:118-132 [check_field_type] *)
Definition check_field_type (t : stype) : bool :=
  match t with
  | TypeScalar (Primitive PUtf8) | TypeScalar (Primitive PByte) | TypeArray (Primitive PUtf8) AFixed _ => false
  | _ => true
  end.
(** ast.rs:53-151 [parse_directive], [parse_constant], [parse_field], [parse_padding_field], and the loop of [parse_to_ast], lines 19-51; [None] is EOI *)
Definition parse_statement (t : tree) : out (option item) :=
  match t with
  | Node statement_directive _ (Node (statement_directive_with_expression | statement_directive_without_expression) _ (Node _ name _ :: r) :: _) =>
      match r with
      | [] => Done (Some (IStatement (SDirective (directive_of name) None)))
      | e :: _ => obind (parse_expression e) (fun e => Done (Some (IStatement (SDirective (directive_of name) (Some e)))))
      end
  | Node statement_service_response_marker _ _ => Done (Some (IStatement SMarker))
  | Node statement_constant _ (ty :: Node _ name _ :: e :: _) =>
      obind (parse_primitive_type ty) (fun p => obind (parse_expression e) (fun e => Done (Some (IStatement (SConstant p name e)))))
  | Node statement_field _ (Node _ _ cs :: Node _ name _ :: _) =>
      obind (parse_data_type parse_expression cs) (fun t => if check_field_type t then Done (Some (IStatement (SField t name))) else Fail)
  | Node statement_padding_field _ (Node _ _ (suffix :: _) :: _) =>
      obind (parse_suffix suffix) (fun n => if between_1_and_64 n then Done (Some (IStatement (SPadding n))) else Fail)
  | Node comment_content x _ => Done (Some (IComment x))
  | Node EOI _ _ => Done None
  | _ => Crash
  end.
Fixpoint parse_to_ast (ts : list tree) (eof : bool) : out (list item) :=
  match ts with
  | [] => if eof then Done [] else Crash
  | t :: r => obind (parse_statement t) (fun i =>
              match i with
              | Some i => obind (parse_to_ast r eof) (fun is => Done (i :: is))
              | None => parse_to_ast r true
              end)
  end.
(** lib.rs:42-45 [parse] *)
Definition parse (s : text) : out (list item) :=
  match run (enough s) definition s with
  | Match ts _ => parse_to_ast ts false
  | NoMatch => Fail
  | Unfinished => Crash
  end.
(** What the compiler is given: the statements, without comments *)
Definition statements (is : list item) : list statement := flat_map (fun i => match i with IStatement st => [st] | IComment _ => [] end) is.

(** compile.rs:284-285: a file whose text is not accepted is an error, like one that can not be read.  [None] is a file that can not be read. *)
Definition parsed (content : option text) : option (list statement) :=
  match content with None => None | Some t => match parse t with Done is => Some (statements is) | _ => None end end.
Definition source : Type := option text * option N.
Definition to_file (s : source) : file := File (parsed (fst s)) (snd s).
(** compile.rs:35-42 [compile], of files as text *)
Definition compile_text nfc powf sort_sets to_float (files : list (key * source)) : out (list (key * compiled)) :=
  compile nfc powf sort_sets to_float (map (fun f => (fst f, to_file (snd f))) files).
