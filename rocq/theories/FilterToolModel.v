(** Model of the command-line tool canadensis_filter_config/bin/optimize_filters.rs.

    - Arguments are byte strings.  [env::args] panics if one of them is not UTF-8; such arguments are left out.
    - [usize] has 64 bits.
    - Messages on standard error are represented by their kind.  A standard output that cannot be written to is left out. *)
From Verif Require Import Base TextModel FilterModel.
Open Scope N_scope.

Inductive failure := UsageError | InvalidNumber | NumberFormatError | CanIdError.
(** What a user of the tool can observe: its exit status, and what it printed *)
Inductive finish := Exit (status : N) (stdout : list N) (stderr : option failure).

(** [from_str_radix] of the unsigned integers below [limit]: the loop *)
Fixpoint checked_digits (base limit acc : N) (t : list N) : option N :=
  match t with
  | [] => Some acc
  | c :: r => match digit_value base c with
              | Some d => if acc * base <? limit then if acc * base + d <? limit then checked_digits base limit (acc * base + d) r else None else None
              | None => None
              end
  end.
(** [from_str_radix]: nothing, or a sign without digits, is not a number; a plus sign is skipped *)
Definition parse_unsigned (base limit : N) (t : list N) : option N :=
  match t with
  | [] => None
  | c :: r => if ((c =? 43) || (c =? 45)) && (length r =? 0)%nat then None
              else if c =? 43 then checked_digits base limit 0 r else checked_digits base limit 0 t
  end.

(** optimize_filters.rs:93-105 [parse_hex_with_prefix] *)
Definition parse_hex_with_prefix (t : list N) : failure + N :=
  if (length t <? 3)%nat then inl NumberFormatError
  else match t with
       | a :: b :: digits =>
           if (a =? 48) && (b =? 120) then match parse_unsigned 16 (2 ^ 32) digits with Some n => inr n | None => inl InvalidNumber end
           else inl NumberFormatError
       | _ => inl NumberFormatError
       end.
(** [collect] into a [Result]: the first error *)
Fixpoint parse_ids (args : list (list N)) : failure + list N :=
  match args with
  | [] => inr []
  | a :: r => match parse_hex_with_prefix a with
              | inl e => inl e
              | inr id => match parse_ids r with inl e => inl e | inr ids => inr (id :: ids) end
              end
  end.
(** optimize_filters.rs:53-69 [get_args]; [args] without the name of the program *)
Definition tool_args (args : list (list N)) : failure + (N * list N) :=
  match args with
  | [] => inl UsageError
  | m :: r =>
      match parse_unsigned 10 (2 ^ 64) m with
      | None => inl InvalidNumber
      | Some max =>
          match parse_ids r with
          | inl e => inl e
          | inr ids => if existsb (fun id => negb (N.land id (N.lxor 0x1fffffff 0xffffffff) =? 0)) ids then inl CanIdError else inr (max, ids)
          end
      end
  end.

(** A digit of [{:x}] *)
Definition hex_char (d : N) : N := if d <? 10 then 48 + d else 87 + d.
(** [{:x}] of a u32, from the last digit to the first *)
Fixpoint hex_reversed (fuel : nat) (n : N) : list N :=
  match fuel with
  | O => []
  | S f => hex_char (n mod 16) :: (if n / 16 =? 0 then [] else hex_reversed f (n / 16))
  end.
(** [{:#010x}]: with the prefix, filled with zeros to ten characters *)
Definition format_hex (n : N) : list N :=
  let digits := rev (hex_reversed 8 n) in
  [48; 120] ++ repeat 48 (10 - 2 - length digits) ++ digits.
(** optimize_filters.rs:42-47 [print_filters]: "ID         | Mask", and a line for each filter *)
Definition header : list N := [73; 68; 32; 32; 32; 32; 32; 32; 32; 32; 32; 124; 32; 77; 97; 115; 107; 10].
Definition print_line (f : filter_t) : list N := format_hex (filter_id f) ++ [32; 32; 32] ++ format_hex (fl_mask f) ++ [10].
Definition print_filters (l : list filter_t) : list N := header ++ concat (map print_line l).

(** optimize_filters.rs:28-40 [run], 18-26 [main]; -1 is 255 as an exit status *)
Definition tool_run (args : list (list N)) : res finish :=
  match tool_args args with
  | inl e => Ok (Exit 255 [] (Some e))
  | inr (max, ids) =>
      match optimize (map filter_exact ids) (N.to_nat max) with
      | Ok l => Ok (Exit 0 (print_filters l) None)
      | Panic => Panic
      end
  end.
