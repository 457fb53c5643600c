(** Specification of names, type keys and packages. *)
From Coq Require Import String.
From Verif Require Import Base GenModel ExprModel PkgModel.
Open Scope list_scope.
Open Scope N_scope.

Definition is_digit (c : N) : Prop := 48 <= c <= 57.
Definition is_letter (c : N) : Prop := 65 <= c <= 90 \/ 97 <= c <= 122.
Definition digits (s : text) : Prop := s <> [] /\ Forall is_digit s.
(** Digits denote a number *)
Inductive denotes_number : text -> N -> Prop :=
| dn_one c : is_digit c -> denotes_number [c] (c - 48)
| dn_more s n c : denotes_number s n -> is_digit c -> denotes_number (s ++ [c]) (10 * n + (c - 48)).

(** A letter or underscore, and then letters, digits and underscores *)
Definition identifier (s : text) : Prop :=
  exists c r, s = c :: r /\ (is_letter c \/ c = 95) /\ Forall (fun c => is_letter c \/ is_digit c \/ c = 95) r.

(** Table 3.5 of the specification, ignoring case *)
Definition reserved_words : list text :=
  map name_of ["truncated"; "saturated"; "true"; "false"; "bool"; "int"; "uint"; "float"; "void"; "optional"; "aligned"; "const"; "struct"; "super"; "template";
               "enum"; "self"; "and"; "or"; "not"; "auto"; "type"; "con"; "prn"; "aux"; "nul"]%string.
Inductive reserved_lowercase : text -> Prop :=
| rl_word w : In w reserved_words -> reserved_lowercase w
| rl_type w d : In w (map name_of ["int"; "uint"; "float"; "void"]%string) -> Forall is_digit d -> reserved_lowercase (w ++ d)
| rl_fixed w d e : In w (map name_of ["q"; "uq"]%string) -> digits d -> digits e -> reserved_lowercase (w ++ d ++ [95] ++ e)
| rl_device w c : In w (map name_of ["com"; "lpt"]%string) -> is_digit c -> reserved_lowercase (w ++ [c])
| rl_underscores s : ~ In 10 s -> reserved_lowercase ([95] ++ s ++ [95]).
Definition reserved (s : text) : Prop := reserved_lowercase (lowercase s).

(** Text with dots between its parts *)
Fixpoint join (ws : list text) : text := match ws with [] => [] | [w] => w | w :: r => w ++ [46] ++ join r end.
Definition part (w : text) : Prop := w <> [] /\ ~ In 46 w.

(** "a.b.Name.1.0" for a key; a number may have leading zeros *)
Definition key_text (k : key) (s : text) : Prop :=
  exists a b, s = join (key_path k ++ [key_name k; a; b]) /\ key_path k <> [] /\ Forall part (key_path k ++ [key_name k]) /\
    denotes_number a (key_major k) /\ key_major k < 256 /\ denotes_number b (key_minor k) /\ key_minor k < 256.
(** "123.Name.1.0.dsdl" or "Name.1.0.dsdl" *)
Definition file_text (port : option N) (name : text) (major minor : N) (s : text) : Prop :=
  exists p a b e, s = join (p ++ [name; a; b; e]) /\
    match port with None => p = [] | Some n => exists t, p = [t] /\ denotes_number t n /\ n < 2 ^ 32 end /\
    part name /\ denotes_number a major /\ major < 256 /\ denotes_number b minor /\ minor < 256 /\ (e = name_of "uavcan" \/ e = name_of "dsdl").

(** The same name but for the case of letters *)
Definition same_key (a b : key) : Prop :=
  map lowercase (key_path a) = map lowercase (key_path b) /\ lowercase (key_name a) = lowercase (key_name b) /\
  key_major a = key_major b /\ key_minor a = key_minor b.
(** What makes a key acceptable for a package *)
Record acceptable (k : key) : Prop := Acceptable {
  ac_namespace : key_path k <> [];
  ac_length : (length (join (key_path k ++ [key_name k])) <= 255)%nat;
  ac_names : Forall (fun w => identifier w /\ ~ reserved w) (key_path k ++ [key_name k]);
  ac_version : ~ (key_major k = 0 /\ key_minor k = 0)
}.
(** No two entries have the same name *)
Definition distinct {File} (p : package File) : Prop := ForallOrdPairs (fun a b => ~ same_key (fst a) (fst b)) p.
