(** Model of packages of DSDL files: canadensis_dsdl_frontend/src/{package,type_key}.rs, types/keywords.rs.

    - Names are lists of code points.  The files of a package are an association list in the order of insertion.
    - Reading directories and files is not modelled.  A path is the list of its parts below the root directory.
    - [\d] of the regular expressions also matches digits of other scripts; where these could match, the numbers do not parse or the
      name is no identifier, so nothing that is accepted changes. *)
From Coq Require Import String Ascii.
From Verif Require Import Base GenModel ExprModel.
Open Scope list_scope.
Open Scope N_scope.

(** Names written as strings *)
Definition name_of (s : string) : text := map N_of_ascii (list_ascii_of_string s).

(** * Regular expressions: the patterns of keywords.rs, matched by derivatives *)

Inductive regex := RNone | REmpty | RSet (p : N -> bool) | RCat (a b : regex) | RAlt (a b : regex) | RStar (a : regex).
Fixpoint nullable (r : regex) : bool :=
  match r with
  | RNone | RSet _ => false
  | REmpty | RStar _ => true
  | RCat a b => nullable a && nullable b
  | RAlt a b => nullable a || nullable b
  end.
Fixpoint derive (c : N) (r : regex) : regex :=
  match r with
  | RNone | REmpty => RNone
  | RSet p => if p c then REmpty else RNone
  | RCat a b => if nullable a then RAlt (RCat (derive c a) b) (derive c b) else RCat (derive c a) b
  | RAlt a b => RAlt (derive c a) (derive c b)
  | RStar a => RCat (derive c a) (RStar a)
  end.
(** [Regex::is_match] of a pattern between ^ and $ *)
Fixpoint is_match (r : regex) (s : text) : bool := match s with [] => nullable r | c :: t => is_match (derive c r) t end.

Definition digit (c : N) : bool := (48 <=? c) && (c <=? 57).
Definition upper (c : N) : bool := (65 <=? c) && (c <=? 90).
Definition lower (c : N) : bool := (97 <=? c) && (c <=? 122).
Definition lower_char (c : N) : N := if upper c then c + 32 else c.
Definition RDigit : regex := RSet digit.
Definition RPlus (r : regex) : regex := RCat r (RStar r).
Definition ROption (r : regex) : regex := RAlt r REmpty.
(** a word with (?i) *)
Fixpoint RWord (w : text) : regex := match w with [] => REmpty | x :: r => RCat (RSet (fun c => lower_char c =? x)) (RWord r) end.
Definition RAny (rs : list regex) : regex := fold_right RAlt RNone rs.
Definition word (s : string) : regex := RWord (name_of s).

(** keywords.rs:16 [IDENTIFIER] *)
Definition identifier_pattern : regex :=
  RCat (RSet (fun c => upper c || lower c || (c =? 95))) (RStar (RSet (fun c => upper c || lower c || digit c || (c =? 95)))).
(** keywords.rs:19-56 [RESERVED] *)
Definition reserved_pattern : regex :=
  RAny [word "truncated"; word "saturated"; word "true"; word "false"; word "bool";
        RCat (ROption (word "u")) (RCat (word "int") (RStar RDigit));
        RCat (word "float") (RStar RDigit);
        RCat (ROption (word "u")) (RCat (word "q") (RCat (RPlus RDigit) (RCat (word "_") (RPlus RDigit))));
        RCat (word "void") (RStar RDigit);
        word "optional"; word "aligned"; word "const"; word "struct"; word "super"; word "template"; word "enum"; word "self";
        word "and"; word "or"; word "not"; word "auto"; word "type"; word "con"; word "prn"; word "aux"; word "nul";
        RCat (word "com") RDigit; RCat (word "lpt") RDigit;
        RCat (word "_") (RCat (RStar (RSet (fun c => negb (c =? 10)))) (word "_"))].
(** keywords.rs:8-14 *)
Definition is_reserved_keyword (s : text) : bool := is_match reserved_pattern s.
Definition is_valid_identifier (s : text) : bool := is_match identifier_pattern s.

(** * Type keys *)

Definition dot : N := 46.
(** [str::split('.')] *)
Fixpoint split_dots (s : text) : list text :=
  match s with
  | [] => [ [] ]
  | c :: r => if c =? dot then [] :: split_dots r else match split_dots r with [] => [ [c] ] | w :: ws => (c :: w) :: ws end
  end.
(** [str::parse] of digits; [bound] is the number of values of the type *)
Definition digits_value (s : text) : N := fold_left (fun n c => n * 10 + (c - 48)) s 0.
Definition parse_number (bound : N) (s : text) : option N :=
  match s with [] => None | _ => if forallb digit s then let n := digits_value s in if n <? bound then Some n else None else None end.
(** [Display] of [u8] *)
Definition show_u8 (n : N) : text :=
  (if 100 <=? n then [48 + n / 100] else []) ++ (if 10 <=? n then [48 + n / 10 mod 10] else []) ++ [48 + n mod 10].
(** type_key.rs:200-217 and TypeVersion's [Display] *)
Definition show_key (k : key) : text :=
  flat_map (fun w => w ++ [dot]) (key_path k) ++ key_name k ++ [dot] ++ show_u8 (key_major k) ++ [dot] ++ show_u8 (key_minor k).
Definition nonempty (w : text) : bool := match w with [] => false | _ => true end.
(** type_key.rs:144-188 [from_str].  The pattern splits the text at its dots: at least one name, and the two numbers. *)
Definition parse_key (s : text) : option key :=
  match rev (split_dots s) with
  | minor :: major :: name :: path =>
      if nonempty name && forallb nonempty path then
        match path with
        | [] => None                                                                      (* type_key.rs:179-187 *)
        | _ => match parse_number 256 major, parse_number 256 minor with
               | Some a, Some b => Some (Key (rev path) name a b)
               | _, _ => None
               end
        end
      else None
  | _ => None
  end.

(** * Packages *)

(** type_key.rs:93-103 [len], in characters *)
Definition full_length (k : key) : N := fold_right (fun w n => N.of_nat (List.length w) + 1 + n) 0 (key_path k) + N.of_nat (List.length (key_name k)).
(** package.rs:191-228 [validate_full_key] *)
Definition validate_full_key (k : key) : bool :=
  match key_path k with
  | [] => false
  | _ => (full_length k <=? 255) &&
         forallb (fun w => is_valid_identifier w && negb (is_reserved_keyword w)) (key_path k ++ [key_name k]) &&
         negb ((key_major k =? 0) && (key_minor k =? 0))
  end.
Section Package.
Context {File : Type}.
Definition package := list (key * File).
Definition find_key {A} (k : key) (l : list (key * A)) : option (key * A) := find (fun e => key_eqb (fst e) k) l.
(** package.rs:140-155 [try_insert]; the package, and whether it was inserted *)
Definition try_insert (p : package) (k : key) (f : File) : package * bool :=
  if validate_full_key k then match find_key k p with Some _ => (p, false) | None => (p ++ [(k, f)], true) end else (p, false).
(** package.rs:84-128 [add_file], [add_string] *)
Definition add_string := try_insert.

(** package.rs:343-370 [parse_file_name].  The pattern splits the name at its dots: the port ID if there is one, the name, the numbers and the extension. *)
Definition is_extension (e : text) : bool := text_eqb e (name_of "uavcan") || text_eqb e (name_of "dsdl").
Definition parse_file_name (s : text) : option (option N * text * N * N) :=
  let versioned (port : option N) (name major minor extension : text) :=
    if nonempty name && is_extension extension then
      match parse_number 256 major, parse_number 256 minor with Some a, Some b => Some (port, name, a, b) | _, _ => None end
    else None in
  match split_dots s with
  | [name; major; minor; extension] => versioned None name major minor extension
  | [port; name; major; minor; extension] =>
      match parse_number (2 ^ 32) port with Some p => versioned (Some p) name major minor extension | None => None end
  | _ => None
  end.
(** package.rs:295-330 [info_from_path], of the parts of the path below the root *)
Definition info_from_path (directories : list text) (file_name : text) : option (key * option N) :=
  match parse_file_name file_name with Some (port, name, a, b) => Some (Key directories name a b, port) | None => None end.
(** package.rs:130-138 [add_file_from_path] *)
Definition add_file_from_path (p : package) (directories : list text) (file_name : text) (f : option N -> File) : package * bool :=
  match info_from_path directories file_name with Some (k, port) => try_insert p k (f port) | None => (p, false) end.
End Package.
Arguments package : clear implicits.
