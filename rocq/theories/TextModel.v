(** Model of the literals of canadensis_dsdl_parser/src/{ast.rs,ast/unescape.rs} and of the way strings are printed,
    canadensis_dsdl_frontend/src/types.rs.

    Characters are code points.  The functions get the text that the grammar (dsdl.pest) matched, or its parts; the grammar itself
    is modelled in ParseModel.v.  Rational numbers are exact, as those of num_rational are. *)
From Coq Require Import QArith Qcanon.
From Verif Require Import Base.
Open Scope N_scope.

(** num_bigint: a digit of the base, [_] between digits is skipped *)
Definition digit_value (base c : N) : option N :=
  let d := if (48 <=? c) && (c <=? 57) then Some (c - 48)
           else if (97 <=? c) && (c <=? 122) then Some (c - 87)
           else if (65 <=? c) && (c <=? 90) then Some (c - 55) else None in
  match d with Some n => if n <? base then Some n else None | None => None end.

(** ast.rs:527-543, 544-567, 568-599, 601-624: the loops of [parse_binary_literal], [parse_octal_literal], [parse_hex_literal] and
    [parse_decimal_digits] are one loop here; [Panic] is [unreachable!] *)
Fixpoint parse_digits (base : N) (value : N) (text : list N) : res N :=
  match text with
  | [] => Ok value
  | c :: r => if c =? 95 then parse_digits base value r
              else match digit_value base c with Some d => parse_digits base (value * base + d) r | None => Panic end
  end.
(** ast.rs:516-525 [parse_integer_literal], by the alternative of the grammar; the first two characters are skipped *)
Inductive integer_kind := Binary | Octal | Hexadecimal | Decimal.
Definition parse_integer_literal (k : integer_kind) (text : list N) : res N :=
  match k with
  | Binary => parse_digits 2 0 (skipn 2 text)
  | Octal => parse_digits 8 0 (skipn 2 text)
  | Hexadecimal => parse_digits 16 0 (skipn 2 text)
  | Decimal => parse_digits 10 0 text
  end.

(** num_bigint [BigInt::from_str]: an optional sign, then a digit, then digits and underscores.  A minus sign cannot get here. *)
Definition parse_bigint (text : list N) : option N :=
  let digits := match text with 43 :: r => r | _ => text end in
  match digits with
  | [] => None
  | c :: _ => if c =? 95 then None else match parse_digits 10 0 digits with Ok n => Some n | Panic => None end
  end.

(** What the grammar matched: the digits before the point, and those behind it *)
Inductive point_notation :=
| Fraction (fraction : list N)                     (* .5 *)
| Point (whole : list N)                           (* 1. *)
| PointFraction (whole fraction : list N).         (* 1.5 *)
(** ast.rs:464-500 [parse_real_point_notation]: the first child is taken for the digits before the point *)
Definition parse_real_point_notation (p : point_notation) : option Qc :=
  match p with
  | Fraction fraction => match parse_bigint (46 :: fraction) with Some n => Some (Q2Qc (Z.of_N n # 1)) | None => None end
  | Point whole => match parse_bigint whole with Some n => Some (Q2Qc (Z.of_N n # 1)) | None => None end
  | PointFraction whole fraction =>
      match parse_bigint whole, parse_bigint fraction with
      | Some w, Some f => Some (Qcplus (Q2Qc (Z.of_N w # 1)) (Q2Qc (Qdiv (Z.of_N f # 1) (Z.of_N (10 ^ N.of_nat (length fraction)) # 1))))
      | _, _ => None
      end
  end.
(** ast.rs:434-462 [parse_real_exponent_notation]: the number before the exponent, the character behind the e and the digits *)
Definition parse_real_exponent_notation (before : point_notation + list N) (sign : N) (digits : list N) : res (option Qc) :=
  match (match before with
         | inl p => Ok (parse_real_point_notation p)
         | inr digits => match parse_digits 10 0 digits with Ok n => Ok (Some (Q2Qc (Z.of_N n # 1))) | Panic => Panic end
         end), parse_digits 10 0 digits with
  | Ok (Some b), Ok e => Ok (Some (Qcmult b (Q2Qc (Qpower (10 # 1) (if sign =? 45 then - Z.of_N e else Z.of_N e)))))
  | Ok None, _ => Ok None                                               (* returns before the exponent is looked at *)
  | _, _ => Panic
  end.

(** * Strings *)

(** [u16::from_str_radix] and [u32::from_str_radix] with base 16; no more digits than fit get here *)
Fixpoint from_hex (value : N) (text : list N) : option N :=
  match text with
  | [] => Some value
  | c :: r => match digit_value 16 c with Some d => from_hex (value * 16 + d) r | None => None end
  end.
Definition from_str_radix_16 (text : list N) : option N :=
  match text with
  | [] => None
  | 43 :: [] => None
  | 43 :: r => from_hex 0 r
  | _ => from_hex 0 text
  end.
(** [char::from_u32] *)
Definition from_u32 (n : N) : option N := if (n <? 0xd800) || ((0xe000 <=? n) && (n <? 0x110000)) then Some n else None.

(** unescape.rs:152-168 [State], the characters collected so far with the number wanted *)
Inductive escape_state := Idle | Backslash | Unicode (wanted : nat) (collected : list N).
(** unescape.rs:48-110, 140-148: one more character of a Unicode escape sequence *)
Definition unicode_step (wanted : nat) (collected : list N) (c : N) : option (escape_state * list N) :=
  let chars := collected ++ [c] in
  if (length chars =? wanted)%nat then
    match from_str_radix_16 chars with
    | Some n => match from_u32 n with Some x => Some (Idle, [x]) | None => None end
    | None => None
    end
  else Some (Unicode wanted chars, []).
(** unescape.rs:11-149: the next state and what is appended *)
Definition unescape_step (s : escape_state) (c : N) : option (escape_state * list N) :=
  match s with
  | Idle => if c =? 92 then Some (Backslash, []) else Some (Idle, [c])
  | Backslash =>
      if c =? 92 then Some (Idle, [92])
      else if c =? 114 then Some (Idle, [13])
      else if c =? 110 then Some (Idle, [10])
      else if c =? 116 then Some (Idle, [9])
      else if c =? 39 then Some (Idle, [39])
      else if c =? 34 then Some (Idle, [34])
      else if c =? 117 then Some (Unicode 4 [], [])
      else if c =? 85 then Some (Unicode 8 [], [])
      else None
  | Unicode wanted collected => unicode_step wanted collected c
  end.
Fixpoint unescape_from (s : escape_state) (text : list N) : option (list N) :=
  match text with
  | [] => match s with Idle => Some [] | _ => None end
  | c :: r => match unescape_step s c with
              | Some (s', out) => match unescape_from s' r with Some t => Some (out ++ t) | None => None end
              | None => None
              end
  end.
(** unescape.rs:7-155 [unescape_string] *)
Definition unescape_string (text : list N) : option (list N) := unescape_from Idle text.

(** types.rs:409-429: how a string is printed, between the quotation marks *)
Definition escape_char (c : N) : list N :=
  if c =? 92 then [92; 92] else if c =? 13 then [92; 114] else if c =? 10 then [92; 110] else if c =? 34 then [92; 34] else [c].
Definition display_string (s : list N) : list N := flat_map escape_char s.
