(** Model of the warnings of the DSDL compiler: canadensis_dsdl_frontend/src/warning.rs.

    - The set of warnings is a list without repetitions; their order (by type and text) is not modelled.
    - Warnings are only modelled for packages that compile.  Each type is then checked once before and once after it is compiled, under the key it
      has in the result (compile.rs:279, 343), so the warnings are those for the entries of the result.
    - Equality of the keys in warnings is exact; the keys in a package differ in more than case, so this makes no difference.
    - [heck] (third party) is transcribed for ASCII, as in [CodeModel]. *)
From Coq Require Import QArith Qcanon.
From Verif Require Import Base GenModel ExprModel PkgModel CompModel CodeModel.
Open Scope list_scope.
Open Scope N_scope.

(** warning.rs:26-59 [WarningKind] *)
Inductive warning :=
| PackageCase (name suggestion : text)
| FieldCase (k : key) (name suggestion : text)
| ConstantCase (k : key) (name suggestion : text)
| TypeNameCase (k : key) (suggestion : text).
Definition warning_eqb (a b : warning) : bool :=
  match a, b with
  | PackageCase x s, PackageCase y t => text_eqb x y && text_eqb s t
  | FieldCase k x s, FieldCase l y t | ConstantCase k x s, ConstantCase l y t => key_eqb_exact k l && text_eqb x y && text_eqb s t
  | TypeNameCase k s, TypeNameCase l t => key_eqb_exact k l && text_eqb s t
  | _, _ => false
  end.
(** warning.rs:127-129 [insert] *)
Definition insert (w : warning) (ws : list warning) : list warning := if existsb (warning_eqb w) ws then ws else ws ++ [w].

(** heck: [to_shouty_snake_case] *)
Definition shouty (s : text) : text := join_words (map (map upper_char) (words s)).
(** warning.rs:213-217 [is_permissive_snake_case] *)
Definition is_permissive_snake_case (s : text) : bool := forallb (fun c => lower c || digit c || (c =? underscore)) s.
(** warning.rs:219-223 [is_permissive_upper_camel_case]: the regular expression [^_?[a-zA-Z0-9]*_?$] *)
Fixpoint alphanumeric_then_underscore (s : text) : bool :=
  match s with
  | [] => true
  | c :: r => if alphanumeric c then alphanumeric_then_underscore r else (c =? underscore) && match r with [] => true | _ => false end
  end.
Definition is_permissive_upper_camel_case (s : text) : bool :=
  match s with c :: r => if c =? underscore then alphanumeric_then_underscore r else alphanumeric_then_underscore s | [] => true end.

(** warning.rs:131-152 [check_pre_compile] *)
Definition check_part (ws : list warning) (part : text) : list warning := if is_permissive_snake_case part then ws else insert (PackageCase part (snake part)) ws.
Definition check_pre_compile (k : key) (ws : list warning) : list warning :=
  let ws := fold_left check_part (key_path k) ws in
  if is_permissive_upper_camel_case (key_name k) then ws else insert (TypeNameCase k (camel (key_name k))) ws.
(** warning.rs:194-205 [check_field_name] *)
Definition check_field_name (k : key) (ws : list warning) (name : text) : list warning :=
  if is_permissive_snake_case name then ws else insert (FieldCase k name (snake name)) ws.
Definition check_field (k : key) (ws : list warning) (f : field cmessage) : list warning :=
  match field_name f with Some name => check_field_name k ws name | None => ws end.
(** warning.rs:181-191 *)
Definition check_constant_name (k : key) (ws : list warning) (c : text * constant) : list warning :=
  if text_eqb (fst c) (shouty (fst c)) then ws else insert (ConstantCase k (fst c) (shouty (fst c))) ws.
(** warning.rs:165-192 [check_message] *)
Definition check_message (k : key) (m : cmessage) (ws : list warning) : list warning :=
  let ws := match c_kind m with
            | CStruct fs => fold_left (check_field k) fs ws
            | CUnion _ vs => fold_left (fun ws v => check_field_name k ws (snd v)) vs ws
            end in
  fold_left (check_constant_name k) (c_constants m) ws.
(** warning.rs:154-163 [check_post_compile] *)
Definition check_post_compile (k : key) (c : compiled) (ws : list warning) : list warning :=
  match compiled_kind c with
  | KMessage m => check_message k m ws
  | KService request response => check_message k response (check_message k request ws)
  end.
(** compile.rs:279, 343: for each type in the result *)
Definition check_type (ws : list warning) (e : key * compiled) : list warning := check_post_compile (fst e) (snd e) (check_pre_compile (fst e) ws).
Definition warnings (results : list (key * compiled)) : list warning := fold_left check_type results [].
(** compile.rs:24-42 [CompileOutput], if compiling succeeds *)
Definition compile_with_warnings nfc powf sort_sets to_float (files : list (key * file)) : out (list (key * compiled) * list warning) :=
  obind (compile nfc powf sort_sets to_float files) (fun results => Done (results, warnings results)).
