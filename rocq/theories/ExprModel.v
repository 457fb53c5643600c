(** Model of the expressions of DSDL files, canadensis_dsdl_frontend/src/{operators/*,types/{expression,set,string,constant}.rs,types.rs}.

    - A [BTreeSet] is a list without repetitions, in the order of insertion; the code visits the elements in ascending order, which makes a
      difference only for which of several failures is met first.
    - Cast modes are left out: they do not change values or lengths.
    - Numbers are exact rationals, as those of num_rational are.  Strings are lists of code points.
    - Third-party functions are parameters: [nfc] normalises strings, [powf] raises to a power that is not an integer, [to_float] converts to
      a floating point type ([None] if the result is not finite), [sort_sets] is [sort_unstable_by] with a comparison that is not an order. *)
From Coq Require Import QArith Qpower Qcanon.
From Verif Require Import Base BlsModel GenModel.
Open Scope N_scope.

(** The result of a step: a value, an error, or a panic *)
Inductive out (A : Type) := Done (a : A) | Fail | Crash.
Arguments Done {A}. Arguments Fail {A}. Arguments Crash {A}.
Definition obind {A B} (x : out A) (f : A -> out B) : out B := match x with Done a => f a | Fail => Fail | Crash => Crash end.
Definition of_res {A} (x : res A) : out A := match x with Ok a => Done a | Panic => Crash end.
Definition of_option {A} (x : option A) : out A := match x with Some a => Done a | None => Fail end.

Definition text := list N.
Fixpoint text_eqb (a b : text) : bool :=
  match a, b with [], [] => true | x :: r, y :: s => (x =? y) && text_eqb r s | _, _ => false end.
Fixpoint path_eqb (a b : list text) : bool :=
  match a, b with [], [] => true | x :: r, y :: s => text_eqb x y && path_eqb r s | _, _ => false end.

(** type_key.rs:17-20 [TypeKey], 81-86 [TypeFullName] *)
Record key := Key { key_path : list text; key_name : text; key_major : N; key_minor : N }.
(** [str::to_lowercase], for ASCII; names in packages are ASCII *)
Definition lowercase (t : text) : text := map (fun c => if (65 <=? c) && (c <=? 90) then c + 32 else c) t.
(** type_key.rs:28-36 [eq], 111-121 [to_lowercase]: names are compared in lowercase *)
Definition key_eqb (a b : key) : bool :=
  path_eqb (map lowercase (key_path a)) (map lowercase (key_path b)) && text_eqb (lowercase (key_name a)) (lowercase (key_name b)) &&
  (key_major a =? key_major b) && (key_minor a =? key_minor b).
(** type_key.rs:66-68 [case_sensitive_equal] *)
Definition key_eqb_exact (a b : key) : bool :=
  path_eqb (key_path a) (key_path b) && text_eqb (key_name a) (key_name b) && (key_major a =? key_major b) && (key_minor a =? key_minor b).

(** types.rs:228-236 [ScalarType], 77-89 [Type] *)
Inductive tscalar := Versioned (k : key) | Primitive (p : prim) | Void (bits : N).
Inductive dtype := DScalar (s : tscalar) | DFixed (s : tscalar) (len : N) | DVariable (s : tscalar) (max_len : N).
Definition prim_eqb (a b : prim) : bool :=
  match a, b with
  | PBool, PBool | PUtf8, PUtf8 | PByte, PByte | PFloat16, PFloat16 | PFloat32, PFloat32 | PFloat64, PFloat64 => true
  | PInt x, PInt y | PUInt x, PUInt y => (x =? y)%nat
  | _, _ => false
  end.
Definition tscalar_eqb (a b : tscalar) : bool :=
  match a, b with Versioned x, Versioned y => key_eqb x y | Primitive x, Primitive y => prim_eqb x y | Void x, Void y => x =? y | _, _ => false end.
Definition dtype_eqb (a b : dtype) : bool :=
  match a, b with
  | DScalar x, DScalar y => tscalar_eqb x y
  | DFixed x m, DFixed y n | DVariable x m, DVariable y n => tscalar_eqb x y && (m =? n)
  | _, _ => false
  end.

(** types.rs:24-37 [Value] *)
Inductive value :=
| VRat (q : Qc)
| VStr (s : text)
| VSet (l : list value)
| VBls (o : operator)
| VBool (b : bool)
| VType (t : dtype).
(** types.rs:341-351 [ExprType] *)
Inductive etype := TRational | TString | TSet (element : option etype) | TBoolean | TType.
Fixpoint etype_eqb (a b : etype) : bool :=
  match a, b with
  | TRational, TRational | TString, TString | TBoolean, TBoolean | TType, TType | TSet None, TSet None => true
  | TSet (Some x), TSet (Some y) => etype_eqb x y
  | _, _ => false
  end.
(** types.rs:41-51 [Value::ty], set.rs:30-34 [Set::ty] *)
Fixpoint type_of (v : value) : etype :=
  match v with
  | VRat _ => TRational
  | VStr _ => TString
  | VSet l => TSet (match l with [] => None | x :: _ => Some (type_of x) end)
  | VBls _ => TSet (Some TRational)
  | VBool _ => TBoolean
  | VType _ => TType
  end.
Definition set_type (l : list value) : option etype := match l with [] => None | x :: _ => Some (type_of x) end.

(** derived [PartialEq] of [Value]; a comparison of bit length sets that overflows does not panic here *)
Definition qeqb (a b : Qc) : bool := if Qc_eq_dec a b then true else false.
Definition beqb (a b : bool) : bool := Bool.eqb a b.
Fixpoint veqb (a b : value) {struct a} : bool :=
  match a, b with
  | VRat x, VRat y => qeqb x y
  | VStr x, VStr y => text_eqb x y
  | VSet l, VSet m => forallb (fun x => existsb (fun y => veqb x y) m) l && forallb (fun y => existsb (fun x => veqb x y) l) m
  | VBls x, VBls y => match bls_eq x y with Ok e => e | Panic => false end
  | VBool x, VBool y => beqb x y
  | VType x, VType y => dtype_eqb x y
  | _, _ => false
  end.

(** * Sets (set.rs) *)
Definition member_of (v : value) (l : list value) : bool := existsb (veqb v) l.
(** [BTreeSet::insert] *)
Definition raw_insert (v : value) (l : list value) : list value := if member_of v l then l else l ++ [v].
(** types.rs:54-66 *)
Definition rational_of (n : N) : Qc := Q2Qc (Z.of_N n # 1).
(** string.rs:26-31 [implicit_int] *)
Definition implicit_int (s : text) : option N := match s with [c] => if c <? 128 then Some c else None | _ => None end.
(** set.rs:143-175 [insert] *)
Definition insert (l : list value) (v : value) : out (list value) :=
  match set_type l with
  | None => Done [v]
  | Some t => if etype_eqb t (type_of v) then Done (raw_insert v l)
              else match v with
                   | VStr s => match implicit_int s with
                               | Some n => if etype_eqb t TRational then Done (raw_insert (VRat (rational_of n)) l) else Fail
                               | None => Fail
                               end
                   | _ => Fail
                   end
  end.
(** set.rs:178-205 [is_compatible], [can_hold], [check_element_types] *)
Definition types_compatible (a b : option etype) : bool := match a, b with Some x, Some y => etype_eqb x y | _, _ => true end.
Definition can_hold (l : list value) (t : etype) : bool := types_compatible (set_type l) (Some t).
Definition is_compatible (l m : list value) : bool := types_compatible (set_type l) (set_type m).
(** set.rs:208-236 [is_subset], [union], [intersection], [symmetric_difference] *)
Definition is_subset (l m : list value) : bool := forallb (fun x => member_of x m) l.
Definition union (l m : list value) : list value := fold_left (fun s x => raw_insert x s) m l.
Definition intersection (l m : list value) : list value := filter (fun x => member_of x m) l.
Definition symmetric_difference (l m : list value) : list value :=
  filter (fun x => negb (member_of x m)) l ++ filter (fun x => negb (member_of x l)) m.
Definition set_equal (l m : list value) : bool := veqb (VSet l) (VSet m).
(** set.rs:247-256 *)
Definition set_of_lengths (ns : list N) : list value := map (fun n => VRat (rational_of n)) ns.
(** [Set::from(set.expand())] *)
Definition expand_set (o : operator) : out (list value) := obind (of_res (bls_expand o)) (fun l => Done (set_of_lengths l)).

(** * Operators on numbers *)

Definition qint (q : Qc) : option Z := if (Qden q =? 1)%positive then Some (Qnum q) else None.
Definition qof (z : Z) : Qc := Q2Qc (z # 1).
Definition is_zero (q : Qc) : bool := (Qnum q =? 0)%Z.
(** num_rational: division by zero panics; the remainder has the sign of the dividend *)
Definition qdiv (a b : Qc) : out Qc := if is_zero b then Crash else Done (Qcdiv a b).
Definition qrem (a b : Qc) : out Qc :=
  if is_zero b then Crash
  else Done (Q2Qc (Z.rem (Qnum a * Zpos (Qden b)) (Qnum b * Zpos (Qden a)) # (Qden a * Qden b))).
Definition qleb (a b : Qc) : bool := Qle_bool a b.

(** types/expression.rs: the operators of two operands *)
Inductive binary :=
| Exponent | Multiply | Divide | Modulo | Add | Subtract
| BitOr | BitXor | BitAnd
| Equal | NotEqual | LessOrEqual | GreaterOrEqual | Less | Greater
| LogicalOr | LogicalAnd.
Inductive unary := UnaryPlus | UnaryMinus | UnaryNot.

Section Operators.
Context (nfc : text -> text) (powf : Qc -> Qc -> option Qc) (sort_sets : list (list value) -> list (list value)).

(** exponent.rs:14-28 [rational_exponent] *)
Definition qpow (base exponent : Qc) : out Qc :=
  match qint exponent with
  | Some z => if (z <? 0)%Z && is_zero base then Crash else Done (Q2Qc (Qpower base z))
  | None => of_option (powf base exponent)
  end.
(** The operators that work on numbers and elementwise on sets of numbers *)
Definition arithmetic (op : binary) (a b : Qc) : out Qc :=
  match op with
  | Exponent => qpow a b
  | Multiply => Done (Qcmult a b)
  | Divide => qdiv a b
  | Modulo => qrem a b
  | Add => Done (Qcplus a b)
  | Subtract => Done (Qcminus a b)
  | _ => Fail
  end.
(** bit_or.rs, bit_and.rs, expression.rs:319-335 *)
Definition bitwise (op : binary) (a b : Qc) : out Qc :=
  match qint a, qint b with
  | Some x, Some y => Done (qof (match op with BitOr => Z.lor x y | BitXor => Z.lxor x y | _ => Z.land x y end))
  | _, _ => Fail
  end.
Definition comparison_holds (op : binary) (a b : Qc) : bool :=
  match op with
  | Equal => qeqb a b
  | NotEqual => negb (qeqb a b)
  | LessOrEqual => qleb a b
  | GreaterOrEqual => qleb b a
  | Less => qleb a b && negb (qeqb a b)
  | _ => qleb b a && negb (qeqb a b)
  end.

(** mod.rs:196-240 [calculate_rational_binary]; a string of one character may stand for a number *)
Definition number_of (v : value) : option Qc :=
  match v with VRat q => Some q | VStr s => option_map rational_of (implicit_int s) | _ => None end.
Definition rational_binary (f : Qc -> Qc -> out value) (lhs rhs : value) : out value :=
  match number_of lhs, number_of rhs with Some a, Some b => f a b | _, _ => Fail end.

(** "expand it into a normal set and try again" *)
Definition expanded (v : value) : out value := match v with VBls o => obind (expand_set o) (fun l => Done (VSet l)) | _ => Done v end.
(** mod.rs:34-109: the results for the elements are collected into a set *)
Fixpoint map_set (f : Qc -> out Qc) (l acc : list value) : out (list value) :=
  match l with
  | [] => Done acc
  | VRat q :: r => obind (f q) (fun x => obind (insert acc (VRat x)) (map_set f r))
  | _ :: _ => Crash                                                               (* the panic of line 50 *)
  end.
Definition elementwise (f : Qc -> Qc -> out Qc) (lhs rhs : value) : out value :=
  obind (expanded lhs) (fun lhs => obind (expanded rhs) (fun rhs =>
  match lhs, rhs with
  | VRat a, VSet l => if can_hold l TRational then obind (map_set (f a) l []) (fun s => Done (VSet s)) else Fail
  | VSet l, VRat b => if can_hold l TRational then obind (map_set (fun a => f a b) l []) (fun s => Done (VSet s)) else Fail
  | _, _ => rational_binary (fun a b => obind (f a b) (fun x => Done (VRat x))) lhs rhs
  end)).

(** mod.rs:112-146 [calculate_rational_or_set_binary] *)
Definition rational_or_set (op : binary) (lhs rhs : value) : out value :=
  match lhs, rhs with
  | VSet l, VSet m =>
      if is_compatible l m then Done (VSet (match op with BitOr => union l m | BitXor => symmetric_difference l m | _ => intersection l m end)) else Fail
  | VBls a, VBls b =>
      match op with
      | BitOr => Done (VBls (bls_unite a [b]))
      | BitXor => obind (expand_set a) (fun l => obind (expand_set b) (fun m => Done (VSet (symmetric_difference l m))))
      | _ => obind (expand_set a) (fun l => obind (expand_set b) (fun m => Done (VSet (intersection l m))))
      end
  | _, _ => rational_binary (fun a b => obind (bitwise op a b) (fun x => Done (VRat x))) lhs rhs
  end.

(** mod.rs:150-192 [calculate_rational_or_set_comparison] *)
Definition set_comparison (op : binary) (l m : list value) : bool :=
  match op with
  | Equal => set_equal l m
  | NotEqual => negb (set_equal l m)
  | LessOrEqual => is_subset l m
  | GreaterOrEqual => is_subset m l
  | Less => is_subset l m && negb (set_equal l m)
  | _ => is_subset m l && negb (set_equal l m)
  end.
Definition rational_or_set_comparison (op : binary) (lhs rhs : value) : out value :=
  obind (expanded lhs) (fun lhs => obind (expanded rhs) (fun rhs =>
  match lhs, rhs with
  | VSet l, VSet m => if is_compatible l m then Done (VBool (set_comparison op l m)) else Fail
  | _, _ => rational_binary (fun a b => Done (VBool (comparison_holds op a b))) lhs rhs
  end)).

(** expression.rs:383-387 [is_u64_integer] *)
Definition u64_integer (q : Qc) : option N := match qint q with Some z => if (0 <=? z)%Z && (z <? 2 ^ 64)%Z then Some (Z.to_N z) else None | None => None end.
(** expression.rs:26-229, add.rs, equal.rs, not_equal.rs *)
Definition apply_binary (op : binary) (lhs rhs : value) : out value :=
  match op with
  | Add => match lhs, rhs with VStr a, VStr b => Done (VStr (nfc (a ++ b))) | _, _ => elementwise (arithmetic Add) lhs rhs end
  | Modulo => match lhs, rhs with
              | VBls o, VRat q => match u64_integer q with
                                  | Some n => obind (of_res (bls_rem o n)) (fun s => Done (VBls s))
                                  | None => elementwise (arithmetic Modulo) lhs rhs
                                  end
              | _, _ => elementwise (arithmetic Modulo) lhs rhs
              end
  | Exponent | Multiply | Divide | Subtract => elementwise (arithmetic op) lhs rhs
  | BitOr | BitXor | BitAnd => rational_or_set op lhs rhs
  | Equal => match lhs, rhs with
             | VStr a, VStr b => Done (VBool (text_eqb a b))
             | VBool a, VBool b => Done (VBool (beqb a b))
             | _, _ => rational_or_set_comparison Equal lhs rhs
             end
  | NotEqual => match lhs, rhs with
                | VStr a, VStr b => Done (VBool (negb (text_eqb a b)))
                | VBool a, VBool b => Done (VBool (negb (beqb a b)))
                | _, _ => rational_or_set_comparison NotEqual lhs rhs
                end
  | LessOrEqual | GreaterOrEqual | Less | Greater => rational_or_set_comparison op lhs rhs
  | LogicalOr => match lhs, rhs with VBool a, VBool b => Done (VBool (a || b)) | _, _ => Fail end
  | LogicalAnd => match lhs, rhs with VBool a, VBool b => Done (VBool (a && b)) | _, _ => Fail end
  end.
(** unary_plus.rs, unary_minus.rs, unary_not.rs *)
Definition apply_unary (u : unary) (v : value) : out value :=
  match u, v with
  | UnaryPlus, VRat q => Done (VRat q)
  | UnaryMinus, VRat q => Done (VRat (Qcopp q))
  | UnaryNot, VBool b => Done (VBool (negb b))
  | _, _ => Fail
  end.

(** set.rs:38-86 [min_value], [max_value]; [least] chooses which *)
Definition qbest (least : bool) (a b : Qc) : Qc := if qleb a b then (if least then a else b) else (if least then b else a).
Fixpoint rationals (l : list value) : option (list Qc) :=
  match l with [] => Some [] | VRat q :: r => option_map (cons q) (rationals r) | _ => None end.
Fixpoint implicit_ints (l : list value) : option (list N) :=
  match l with
  | [] => Some []
  | VStr s :: r => match implicit_int s, implicit_ints r with Some n, Some ns => Some (n :: ns) | _, _ => None end
  | _ => None
  end.
(** set.rs:92-116 [sets_sorted], 118-141 [string_as_ints_sorted] *)
Fixpoint inner_sets (l : list value) : out (list (list value)) :=
  match l with
  | [] => Done []
  | VSet s :: r => obind (inner_sets r) (fun ss => Done (s :: ss))
  | VBls o :: r => obind (expand_set o) (fun s => obind (inner_sets r) (fun ss => Done (s :: ss)))
  | _ :: _ => Crash
  end.
Definition set_best (least : bool) (l : list value) : out value :=
  match set_type l with
  | Some TRational => match rationals l with
                      | Some (q :: r) => Done (VRat (fold_left (qbest least) r q))
                      | _ => Crash                                                  (* not so if all elements have the same type *)
                      end
  | Some (TSet _) => obind (inner_sets l) (fun ss => match (if least then sort_sets ss else rev (sort_sets ss)) with s :: _ => Done (VSet s) | [] => Crash end)
  | Some TString => match implicit_ints l with
                    | Some (n :: r) => Done (VStr [fold_left (if least then N.min else N.max) r n])
                    | _ => Fail
                    end
  | _ => Fail
  end.

(** * Expressions *)

Inductive array_kind := AFixed | AInclusive | AExclusive.
(** canadensis_dsdl_parser/src/lib.rs [Expression]; a parenthesized expression is the expression inside *)
Inductive expr :=
| ENumber (q : Qc)
| EString (s : text)
| EBoolean (b : bool)
| ESet (es : list expr)
| EScalar (s : tscalar)
| EArray (s : tscalar) (k : array_kind) (length : expr)
| EIdentifier (name : text)
| EUnary (u : unary) (e : expr)
| EAttribute (e : expr) (name : text)
| EBinary (op : binary) (lhs rhs : expr).

(** Names with a meaning: _offset_, min, max, count, _bit_length_ *)
Definition name_offset : text := [95; 111; 102; 102; 115; 101; 116; 95].
Definition name_min : text := [109; 105; 110].
Definition name_max : text := [109; 97; 120].
Definition name_count : text := [99; 111; 117; 110; 116].
Definition name_bit_length : text := [95; 98; 105; 116; 95; 108; 101; 110; 103; 116; 104; 95].

(** constants.rs:34-39 [get] *)
Fixpoint find_constant {A} (name : text) (l : list (text * A)) : option A :=
  match l with [] => None | (n, v) :: r => if text_eqb n name then Some v else find_constant name r end.

(** expression.rs:277-317 [evaluate_array_length], after the expression is evaluated *)
Definition array_length (v : value) : out N :=
  match v with
  | VRat q => match qint q with
              | Some z => if (z <? 0)%Z then Fail else if (z <? 2 ^ 64)%Z then Done (Z.to_N z) else Fail
              | None => Fail
              end
  | _ => Fail
  end.
(** expression.rs:338-380 [convert_type], of an array *)
Definition array_type (s : tscalar) (k : array_kind) (n : N) : out dtype :=
  match k with
  | AFixed => Done (DFixed s n)
  | AInclusive => Done (DVariable s n)
  | AExclusive => if 0 <? n then Done (DVariable s (n - 1)) else Fail
  end.

(** What an expression can refer to: the offset (which changes the state of a union), the constants declared so far, and other types, as
    their length and constants ([None]: a service).  [S] is the state of the compiler. *)
Context (S : Type) (offset : S -> operator * S) (constants : S -> list (text * value))
        (lookup : key -> S -> out (option (operator * list (text * value)) * S)).
Definition sbind {A B} (x : out (A * S)) (f : A -> S -> out (B * S)) : out (B * S) := obind x (fun p => f (fst p) (snd p)).
Definition pure {A} (s : S) (x : out A) : out (A * S) := obind x (fun a => Done (a, s)).

(** types.rs:265-285 [ScalarType::bit_length_set] *)
Definition scalar_length (t : tscalar) (s : S) : out (operator * S) :=
  match t with
  | Versioned k => sbind (lookup k s) (fun m s => match m with Some (o, _) => Done (o, s) | None => Fail end)
  | Primitive p => Done (bls_single (N.of_nat (prim_bits p)), s)
  | Void bits => Done (bls_single bits, s)
  end.
(** types.rs:112-128 [Type::bit_length_set] *)
Definition dtype_length (t : dtype) (s : S) : out (operator * S) :=
  match t with
  | DScalar x => scalar_length x s
  | DFixed x n => sbind (scalar_length x s) (fun o s => Done (bls_repeat o n, s))
  | DVariable x n => sbind (scalar_length x s) (fun o s => Done (bls_repeat_range o n, s))
  end.
(** attribute.rs *)
Definition attribute (v : value) (name : text) (s : S) : out (value * S) :=
  match v with
  | VSet l =>
      if text_eqb name name_min then pure s (set_best true l)
      else if text_eqb name name_max then pure s (set_best false l)
      else if text_eqb name name_count then Done (VRat (rational_of (N.of_nat (length l))), s)
      else Fail
  | VBls o =>
      if text_eqb name name_min then pure s (obind (of_res (bls_min_value o)) (fun n => Done (VRat (rational_of n))))
      else if text_eqb name name_max then pure s (obind (of_res (bls_max_value o)) (fun n => Done (VRat (rational_of n))))
      else if text_eqb name name_count then pure s (obind (of_res (bls_expand o)) (fun l => Done (VRat (rational_of (N.of_nat (length l))))))
      else Fail
  | VType t =>
      if text_eqb name name_bit_length then sbind (dtype_length t s) (fun o s => Done (VBls o, s))
      else match t with
           | DScalar (Versioned k) =>
               sbind (lookup k s) (fun m s => match m with
                                              | Some (_, cs) => pure s (of_option (find_constant name cs))
                                              | None => Fail
                                              end)
           | _ => Fail
           end
  | _ => Fail
  end.
(** expression.rs:26-275 [evaluate_expression], [evaluate_atom] *)
Fixpoint eval (e : expr) (s : S) {struct e} : out (value * S) :=
  match e with
  | ENumber q => Done (VRat q, s)
  | EString t => Done (VStr (nfc t), s)
  | EBoolean b => Done (VBool b, s)
  | ESet es =>
      (fix elements (es : list expr) (acc : list value) (s : S) {struct es} : out (value * S) :=
         match es with
         | [] => Done (VSet acc, s)
         | e :: r => sbind (eval e s) (fun v s => obind (insert acc v) (fun acc => elements r acc s))
         end) es [] s
  | EScalar t => Done (VType (DScalar t), s)
  | EArray t k n => sbind (eval n s) (fun v s => obind (array_length v) (fun n => obind (array_type t k n) (fun t => Done (VType t, s))))
  | EIdentifier name =>
      if text_eqb name name_offset then let '(o, s) := offset s in Done (VBls o, s)
      else pure s (of_option (find_constant name (constants s)))
  | EUnary u e => sbind (eval e s) (fun v s => pure s (apply_unary u v))
  | EAttribute e name => sbind (eval e s) (fun v s => attribute v name s)
  | EBinary op a b => sbind (eval a s) (fun v s => sbind (eval b s) (fun w s => pure s (apply_binary op v w)))
  end.
End Operators.

(** * Constants *)

(** constant.rs:219-231 [ConstantValue]; floating point values are bit patterns *)
Inductive constant_value := CBoolean (b : bool) | CInt (z : Z) | CFloat (width : nat) (bits : N).
(** constant.rs:96-216 [check_type_compatibility] *)
Definition check_constant (to_float : nat -> Qc -> option N) (declared : prim) (v : value) : out constant_value :=
  match declared, v with
  | PBool, VBool b => Done (CBoolean b)
  | PUInt bits, VStr s => if (bits =? 8)%nat then of_option (option_map (fun n => CInt (Z.of_N n)) (implicit_int s)) else Fail
  | PInt bits, VRat q =>
      match qint q with
      | Some z => if (- 2 ^ Z.of_nat (bits - 1) <=? z)%Z && (z <? 2 ^ Z.of_nat (bits - 1))%Z then Done (CInt z) else Fail
      | None => Fail
      end
  | PUInt bits, VRat q =>
      match qint q with
      | Some z => if (0 <=? z)%Z && (z <? 2 ^ Z.of_nat bits)%Z then Done (CInt z) else Fail
      | None => Fail
      end
  | PFloat16, VRat q => of_option (option_map (CFloat 16) (to_float 16%nat q))
  | PFloat32, VRat q => of_option (option_map (CFloat 32) (to_float 32%nat q))
  | PFloat64, VRat q => of_option (option_map (CFloat 64) (to_float 64%nat q))
  | _, _ => Fail
  end.
