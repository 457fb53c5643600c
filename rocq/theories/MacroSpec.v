(** Specification of [types_from_dsdl!]: what can be written, and what it asks for. *)
From Coq Require Import String.
From Verif Require Import Base GenModel ExprModel ParseModel PkgModel PkgSpec CodeModel MacroModel.
Open Scope list_scope.
Open Scope N_scope.

(** A part of a path: $CARGO_MANIFEST_DIR, or a string. *)
Inductive path_part := ManifestDir | Quoted (s : text).
(** package(...), make_external(a.b, c::d), type "..." { "..." } *)
Inductive command :=
| Directory (path : list path_part)
| External (dsdl_package rust_module : list text)
| Inline (name dsdl : text).

(** ** How it is written *)
Fixpoint between (separator : list token) (l : list (list token)) : list token :=
  match l with [] => [] | [x] => x | x :: r => x ++ separator ++ between separator r end.
Definition part_tokens (p : path_part) : list token :=
  match p with ManifestDir => [TPunct 36; TIdent (name_of "CARGO_MANIFEST_DIR")] | Quoted s => [TLiteral (Some s)] end.
(** with separators between the parts, and perhaps one more at the end *)
Definition listed (separator : list token) (l : list (list token)) (ts : list token) : Prop :=
  ts = between separator l \/ (l <> [] /\ ts = between separator l ++ separator).
Definition idents (names : list text) : list (list token) := map (fun n => [TIdent n]) names.
Inductive written : command -> list token -> Prop :=
| w_directory parts arguments : listed [TPunct 44] (map part_tokens parts) arguments -> written (Directory parts) [TIdent (name_of "package"); TGroup Parenthesis arguments]
| w_external p m ts : p <> [] -> m <> [] -> listed [TPunct 58; TPunct 58] (idents m) ts ->
    written (External p m) [TIdent (name_of "make_external"); TGroup Parenthesis (between [TPunct 46] (idents p) ++ [TPunct 44] ++ ts)]
| w_inline name dsdl : written (Inline name dsdl) [TIdent (name_of "type"); TLiteral (Some name); TGroup Brace [TLiteral (Some dsdl)] ].
Definition all_written (commands : list command) (ts : list token) : Prop := exists l, Forall2 written commands l /\ ts = concat l.

(** ** What it asks for *)
Section Meaning.
  Context (env : text -> option text) (files_in : text -> option (list (list text * text * option text))).
  Inductive path_text : list path_part -> text -> Prop :=
  | pt_end : path_text [] []
  | pt_dir d parts s : env (name_of "CARGO_MANIFEST_DIR") = Some d -> path_text parts s -> path_text (ManifestDir :: parts) (d ++ s)
  | pt_quoted q parts s : path_text parts s -> path_text (Quoted q :: parts) (q ++ s).
  (** the type that a file in a directory defines *)
  Definition file_type (f : list text * text * option text) (x : key * source) : Prop :=
    let '(directories, file_name, content) := f in
    exists port name major minor, file_text port name major minor file_name /\ x = (Key directories name major minor, (content, port)).
  (** the types of a command, and the external packages *)
  Inductive asks : command -> list (key * source) -> packages -> Prop :=
  | as_directory parts path files types : path_text parts path -> files_in path = Some files -> Forall2 file_type files types -> asks (Directory parts) types []
  | as_external p m : asks (External p m) [] [(p, m)]
  | as_inline name dsdl k : key_text k name -> asks (Inline name dsdl) [(k, (Some dsdl, None))] [].
  Inductive asks_all : list command -> list (key * source) -> packages -> Prop :=
  | aa_nil : asks_all [] [] []
  | aa_cons c r types es types' es' : asks c types es -> asks_all r types' es' -> asks_all (c :: r) (types ++ types') (es ++ es').
  (** and nothing is said twice or can not be a type *)
  Definition means (commands : list command) (types : list (key * source)) (es : packages) : Prop :=
    asks_all commands types es /\ Forall (fun t => acceptable (fst t)) types /\ distinct types /\ NoDup (map fst es).
End Meaning.
