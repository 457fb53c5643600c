(** Model of canadensis_bit_length_set/src/{operator,lib}.rs.

    A [BTreeSet<u64>] is its sorted list of elements.  Arithmetic on u64 is checked: overflow panics, as it does with debug
    assertions (without them it would wrap around).  [usize] has 64 bits, so that the conversions of counts to [usize] never
    fail. *)
From Verif Require Import Base.

Definition bindr {A B} (x : res A) (f : A -> res B) : res B := match x with Ok a => f a | Panic => Panic end.
Definition mapM {A B} (f : A -> res B) : list A -> res (list B) :=
  fix go l := match l with [] => Ok [] | x :: r => bindr (f x) (fun y => bindr (go r) (fun ys => Ok (y :: ys))) end.

Definition chk64 (n : N) : res N := if n <? 2 ^ 64 then Ok n else Panic.
Definition add64 (a b : N) : res N := chk64 (a + b).
Definition mul64 (a b : N) : res N := chk64 (a * b).
Definition rem64 (a b : N) : res N := if b =? 0 then Panic else Ok (a mod b).
Definition sum64 (l : list N) : res N := fold_left (fun s x => bindr s (fun s => add64 s x)) l (Ok 0).

(** operator.rs:263-266 [align_up]: [div_ceil] does not overflow, the multiplication may *)
Definition align_up (value alignment : N) : res N :=
  if alignment =? 0 then Panic
  else mul64 (value / alignment + (if value mod alignment =? 0 then 0 else 1)) alignment.

(** [BTreeSet]: [collect] and the comparison of sets *)
Fixpoint set_insert (x : N) (l : list N) : list N :=
  match l with
  | [] => [x]
  | y :: r => match x ?= y with Lt => x :: l | Eq => l | Gt => y :: set_insert x r end
  end.
Definition set_of (l : list N) : list N := fold_left (fun s x => set_insert x s) l [].
Fixpoint set_eqb (a b : list N) : bool :=
  match a, b with [], [] => true | x :: a', y :: b' => (x =? y) && set_eqb a' b' | _, _ => false end.
Fixpoint set_compare (a b : list N) : comparison :=
  match a, b with
  | [], [] => Eq
  | [], _ :: _ => Lt
  | _ :: _, [] => Gt
  | x :: a', y :: b' => match x ?= y with Eq => set_compare a' b' | c => c end
  end.

(** itertools [multi_cartesian_product] (of at least one iterator) and [combinations_with_replacement] *)
Fixpoint cartesian (ls : list (list N)) : list (list N) :=
  match ls with [] => [[]] | l :: r => flat_map (fun x => map (cons x) (cartesian r)) l end.
Fixpoint combos (k : nat) : list N -> list (list N) :=
  match k with
  | O => fun _ => [[]]
  | S k' => fix go l := match l with [] => [] | x :: r => map (cons x) (combos k' (x :: r)) ++ go r end
  end.

(** operator.rs:8-33 [Operator] *)
Inductive operator :=
| Leaf (values : list N)
| Padding (child : operator) (alignment : N)
| Concatenate (children : list operator)
| Repeat (child : operator) (count : N)
| RangeRepeat (child : operator) (count_end : N)
| Union (children : list operator).

Definition list_min (l : list N) : res N := match l with [] => Panic | x :: r => Ok (fold_left N.min r x) end.
Definition list_max (l : list N) : res N := match l with [] => Panic | x :: r => Ok (fold_left N.max r x) end.
(** operator.rs:296-317 [SetMinMax]: the first and the last element *)
Definition set_min (l : list N) : res N := match l with [] => Panic | x :: _ => Ok x end.
Definition set_max (l : list N) : res N := match rev l with [] => Panic | x :: _ => Ok x end.

(** operator.rs:36-48 [min] *)
Fixpoint op_min (o : operator) : res N :=
  match o with
  | Leaf values => set_min values
  | Padding child alignment => bindr (op_min child) (fun m => align_up m alignment)
  | Concatenate children => bindr (mapM op_min children) sum64
  | Repeat child count => bindr (op_min child) (fun m => mul64 m count)
  | RangeRepeat _ _ => Ok 0
  | Union children => bindr (mapM op_min children) list_min
  end.
(** operator.rs:50-62 [max] *)
Fixpoint op_max (o : operator) : res N :=
  match o with
  | Leaf values => set_max values
  | Padding child alignment => bindr (op_max child) (fun m => align_up m alignment)
  | Concatenate children => bindr (mapM op_max children) sum64
  | Repeat child count => bindr (op_max child) (fun m => mul64 m count)
  | RangeRepeat child count_end => bindr (op_max child) (fun m => mul64 m count_end)
  | Union children => bindr (mapM op_max children) list_max
  end.

(** num_integer [lcm] of two numbers that are not both 0 *)
Definition lcm64 (a b : N) : res N := if N.gcd a b =? 0 then Ok 0 else mul64 a (b / N.gcd a b).
Definition sum_rem (divisor : N) (values : list N) : res N := bindr (sum64 values) (fun s => rem64 s divisor).
(** [min(count, divisor + count % divisor)] and the assertion behind it *)
Definition equivalent_count (count divisor : N) : res N :=
  bindr (rem64 count divisor) (fun r => bindr (add64 divisor r) (fun s =>
  let e := N.min count s in
  bindr (rem64 e divisor) (fun re => if r =? re then Ok e else Panic))).

(** operator.rs:64-133 [modulo] *)
Fixpoint op_modulo (o : operator) (divisor : N) : res (list N) :=
  match o with
  | Leaf values => bindr (mapM (fun length => rem64 length divisor) values) (fun l => Ok (set_of l))
  | Padding child alignment =>
      bindr (op_max o) (fun max =>
      bindr (lcm64 alignment divisor) (fun lcm =>
      bindr (op_modulo child divisor) (fun mods =>
      bindr (mapM (fun value =>
               if (value <=? max) && (value <? lcm) then bindr (align_up value alignment) (fun a => rem64 a divisor)
               else Panic) mods)                                                             (* debug_assert *)
            (fun l => Ok (set_of l)))))
  | Concatenate children =>
      bindr (mapM (fun child => op_modulo child divisor) children) (fun child_mods =>
      bindr (mapM (sum_rem divisor) (cartesian child_mods)) (fun l => Ok (set_of l)))
  | Repeat child count =>
      bindr (equivalent_count count divisor) (fun e =>
      bindr (op_modulo child divisor) (fun mods =>
      bindr (mapM (sum_rem divisor) (combos (N.to_nat e) mods)) (fun l => Ok (set_of l))))
  | RangeRepeat child count_end =>
      bindr (op_modulo child divisor) (fun single =>
      bindr (equivalent_count count_end divisor) (fun e =>
      bindr (mapM (sum_rem divisor) (flat_map (fun k => combos k single) (seq 0 (S (N.to_nat e))))) (fun l => Ok (set_of l))))
  | Union children => bindr (mapM (fun child => op_modulo child divisor) children) (fun l => Ok (set_of (concat l)))
  end.

(** operator.rs:136-176 [expand] *)
Fixpoint op_expand (o : operator) : res (list N) :=
  match o with
  | Leaf values => Ok values
  | Padding child alignment =>
      bindr (op_expand child) (fun vs => bindr (mapM (fun v => align_up v alignment) vs) (fun l => Ok (set_of l)))
  | Concatenate children =>
      bindr (mapM op_expand children) (fun vss => bindr (mapM sum64 (cartesian vss)) (fun l => Ok (set_of l)))
  | Repeat child count =>
      bindr (op_expand child) (fun vs => bindr (mapM sum64 (combos (N.to_nat count) vs)) (fun l => Ok (set_of l)))
  | RangeRepeat child count_end =>
      bindr (op_expand child) (fun vs =>
      bindr (mapM sum64 (flat_map (fun k => combos k vs) (seq 0 (S (N.to_nat count_end))))) (fun l => Ok (set_of l)))
  | Union children => bindr (mapM op_expand children) (fun vss => Ok (set_of (concat vss)))
  end.

(** operator.rs:194-260 [structural_equal] *)
Fixpoint structural_equal (a b : operator) {struct a} : bool :=
  match a, b with
  | Leaf x, Leaf y => set_eqb x y
  | Padding c1 a1, Padding c2 a2 => (a1 =? a2) && structural_equal c1 c2
  | Concatenate l1, Concatenate l2 | Union l1, Union l2 =>
      (length l1 =? length l2)%nat &&
      (fix all (l1 l2 : list operator) : bool :=
         match l1, l2 with x :: r1, y :: r2 => structural_equal x y && all r1 r2 | _, _ => true end) l1 l2
  | Repeat c1 n1, Repeat c2 n2 => (n1 =? n2) && structural_equal c1 c2
  | RangeRepeat c1 n1, RangeRepeat c2 n2 => (n1 =? n2) && structural_equal c1 c2
  | _, _ => false
  end.

(** lib.rs: the public constructors.  [single] (22-28), [from_lengths] (32-45), [from_length_set] (50-58), [pad_to_alignment]
    (194-201), [repeat] (232-239), [repeat_range] (267-274), [concatenate] (296-302) with [extend] (387-400), [unite]
    (318-328) *)
Definition bls_single (length : N) : operator := Leaf [length].
Definition bls_from_lengths (values : list N) : option operator := match set_of values with [] => None | l => Some (Leaf l) end.
Definition bls_pad (s : operator) (alignment : N) : operator := Padding s alignment.
Definition bls_repeat (s : operator) (count : N) : operator := Repeat s count.
Definition bls_repeat_range (s : operator) (count_end : N) : operator := RangeRepeat s count_end.
Definition bls_concatenate (s : operator) (others : list operator) : operator := Concatenate (s :: others).
Definition bls_unite (s : operator) (others : list operator) : operator := Union (s :: others).

(** lib.rs:75-77, 93-95, 112-114, 177-179 [min_value], [max_value], [is_fixed_size], [expand] *)
Definition bls_min_value (s : operator) : res N := op_min s.
Definition bls_max_value (s : operator) : res N := op_max s.
Definition bls_is_fixed_size (s : operator) : res bool :=
  bindr (bls_min_value s) (fun a => bindr (bls_max_value s) (fun b => Ok (a =? b))).
Definition bls_expand (s : operator) : res (list N) := op_expand s.
(** lib.rs:378-384 [Rem::rem] *)
Definition bls_rem (s : operator) (rhs : N) : res operator :=
  bindr (op_modulo s rhs) (fun l => match l with [] => Panic | _ => Ok (Leaf l) end).        (* debug_assert *)
(** lib.rs:154-157 [is_aligned], 137-139 [is_byte_aligned] *)
Definition bls_is_aligned (s : operator) (bit_length : N) : res bool :=
  bindr (bls_rem s bit_length) (fun r =>
  bindr (bls_is_fixed_size r) (fun f => if f then bindr (bls_min_value r) (fun m => Ok (m =? 0)) else Ok false)).
Definition bls_is_byte_aligned (s : operator) : res bool := bls_is_aligned s 8.
(** lib.rs:403-410 [eq], 422-425 [cmp] *)
Definition bls_eq (a b : operator) : res bool :=
  if structural_equal a b then Ok true
  else bindr (bls_expand a) (fun x => bindr (bls_expand b) (fun y => Ok (set_eqb x y))).
Definition bls_cmp (a b : operator) : res comparison :=
  bindr (bls_expand a) (fun x => bindr (bls_expand b) (fun y => Ok (set_compare x y))).
(** operator.rs:180-192 [validate_numerically] *)
Definition bls_validate (s : operator) : res unit :=
  bindr (op_expand s) (fun expanded =>
  bindr (set_min expanded) (fun emin => bindr (op_min s) (fun omin =>
  if negb (emin =? omin) then Panic else
  bindr (set_max expanded) (fun emax => bindr (op_max s) (fun omax =>
  if negb (emax =? omax) then Panic else
  bindr (mapM (fun i => bindr (op_modulo s i) (fun m => bindr (mapM (fun v => rem64 v i) expanded) (fun e =>
                        if set_eqb m (set_of e) then Ok tt else Panic)))
              (map N.of_nat (seq 1 64)))
        (fun _ => Ok tt)))))).
