(** Model of the macro [types_from_dsdl!]: canadensis_macro/src/input.rs and lib.rs.

    Tokens are modelled as the trees that the compiler gives to the macro; positions in the source, and so the places that errors are reported
    for, are not modelled: an error is [Fail].  What a literal means (syn) is part of the token. *)
From Coq Require Import String.
From Verif Require Import Base GenModel ExprModel CompModel ParseModel PkgModel CodeModel.
Open Scope list_scope.
Open Scope N_scope.

(** proc_macro2 [TokenTree], [Delimiter]; a literal is a string literal with the text, or another one *)
Inductive delimiter := Parenthesis | Brace | Bracket | NoDelimiter.
Inductive token :=
| TIdent (name : text)
| TPunct (c : N)
| TLiteral (content : option text)
| TGroup (d : delimiter) (content : list token).
(** input.rs:9-18 [Statement] *)
Inductive mstatement := MFunction (name : text) (arguments : list token) | MInlineType (name dsdl : text).

(** input.rs:149-162 [from_literal] *)
Definition from_literal (content : option text) : out text := match content with Some s => Done s | None => Fail end.
(** input.rs:84-102 [parse_function] *)
Definition parse_function (before content : list token) : out mstatement :=
  match before with [TIdent name] => Done (MFunction name content) | _ :: _ => Fail | [] => Crash end.
(** input.rs:121-139 [parse_string_in_group] *)
Definition parse_string_in_group (content : list token) : out text :=
  match content with [TLiteral l] => from_literal l | _ => Fail end.
(** input.rs:103-119 [parse_inline_type] *)
Definition parse_inline_type (before content : list token) : out mstatement :=
  match before with
  | [TIdent t; TLiteral l] =>
      if text_eqb t (name_of "type") then obind (from_literal l) (fun name => obind (parse_string_in_group content) (fun dsdl => Done (MInlineType name dsdl))) else Fail
  | _ :: _ => Fail
  | [] => Crash
  end.
(** input.rs:70-82 [parse_statement] *)
Definition parse_mstatement (before : list token) (d : delimiter) (content : list token) : out mstatement :=
  match d with Parenthesis => parse_function before content | Brace => parse_inline_type before content | Bracket | NoDelimiter => Fail end.
(** input.rs:29-67 [Input::parse]; [before] is [trees_before_group], which is empty between statements *)
Fixpoint parse_input (before : list token) (ts : list token) : out (list mstatement) :=
  match ts with
  | [] => match before with [] => Done [] | _ => Fail end
  | t :: r =>
      match before with
      | [] => match t with TIdent _ => parse_input [t] r | _ => Fail end
      | _ => match t with
             | TGroup d content => obind (parse_mstatement before d content) (fun s => obind (parse_input [] r) (fun l => Done (s :: l)))
             | _ => parse_input (before ++ [t]) r
             end
      end
  end.

Definition comma : N := 44.
Definition colon : N := 58.
Definition dollar : N := 36.
Section Macro.
  (** [std::env::var], and the DSDL files below a directory, in the order of the walk: directories below the root, name and content;
      [None] when the directory can not be read *)
  Context (env : text -> option text) (files_in : text -> option (list (list text * text * option text))).

  (** lib.rs:239-251 [eval_env_variable] *)
  Definition eval_env_variable (name : text) : out text :=
    if text_eqb name (name_of "CARGO_MANIFEST_DIR") then match env name with Some v => Done v | None => Fail end else Fail.
  (** lib.rs:191-237 [eval_path_arguments]; [path] is what has been read *)
  Fixpoint eval_path (path : text) (ts : list token) : out text :=
    match ts with
    | [] => Done path
    | TPunct c :: r =>
        if c =? dollar then
          match r with
          | TIdent name :: r' =>
              obind (eval_env_variable name) (fun v =>
              match r' with [] => Done (path ++ v) | TPunct c' :: r'' => if c' =? comma then eval_path (path ++ v) r'' else Fail | _ => Fail end)
          | _ => Fail
          end
        else Fail
    | TLiteral l :: r =>
        obind (from_literal l) (fun v =>
        match r with [] => Done (path ++ v) | TPunct c' :: r' => if c' =? comma then eval_path (path ++ v) r' else Fail | _ => Fail end)
    | _ => Fail
    end.
  (** package.rs:52-67 [add_files] *)
  Fixpoint add_all (p : package source) (l : list (list text * text * option text)) : out (package source) :=
    match l with
    | [] => Done p
    | (directories, file_name, content) :: r =>
        let (p', ok) := add_file_from_path p directories file_name (fun port => (content, port)) in if ok then add_all p' r else Fail
    end.
  (** lib.rs:86-95 [eval_package_function] *)
  Definition eval_package (p : package source) (arguments : list token) : out (package source) :=
    obind (eval_path [] arguments) (fun path => match files_in path with Some l => add_all p l | None => Fail end).

  (** lib.rs:108-135, the first loop: the package, and the tokens after the comma *)
  Fixpoint cyphal_package (ts : list token) : out (list text * list token) :=
    match ts with
    | [] => Done ([], [])
    | TIdent name :: TPunct c :: r =>
        if c =? dot then obind (cyphal_package r) (fun x => Done (name :: fst x, snd x))
        else if c =? comma then Done ([name], r)
        else Fail
    | _ => Fail
    end.
  (** lib.rs:144-178, the second loop *)
  Fixpoint rust_module (ts : list token) : out (list text) :=
    match ts with
    | [] => Done []
    | [TIdent name] => Done [name]
    | TIdent name :: TPunct c :: TPunct c' :: r => if (c =? colon) && (c' =? colon) then obind (rust_module r) (fun l => Done (name :: l)) else Fail
    | _ => Fail
    end.
  (** lib.rs:97-196 [eval_make_external_function] *)
  Definition eval_make_external (e : packages) (arguments : list token) : out packages :=
    obind (cyphal_package arguments) (fun x =>
    match fst x with
    | [] => Fail
    | _ => obind (rust_module (snd x)) (fun m =>
           match m with [] => Fail | _ => match get_package e (fst x) with None => Done (e ++ [(fst x, m)]) | Some _ => Fail end end)
    end).
  (** lib.rs:253-267 [eval_inline_type] *)
  Definition eval_inline_type (p : package source) (name dsdl : text) : out (package source) :=
    match parse_key name with
    | Some k => let (p', ok) := add_string p k (Some dsdl, None) in if ok then Done p' else Fail
    | None => Fail
    end.

  (** lib.rs:25-67 [types_from_dsdl_inner]: what code is generated from; [None]: nothing is generated *)
  Fixpoint eval_statements (p : package source) (e : packages) (l : list mstatement) : out (option (package source * packages)) :=
    match l with
    | [] => Done None
    | MFunction name arguments :: r =>
        if text_eqb name (name_of "package") then obind (eval_package p arguments) (fun p' => eval_statements p' e r)
        else if text_eqb name (name_of "make_external") then obind (eval_make_external e arguments) (fun e' => eval_statements p e' r)
        else if text_eqb name (name_of "generate") then match r with [] => Done (Some (p, e)) | _ => Fail end
        else Fail
    | MInlineType name dsdl :: r => obind (eval_inline_type p name dsdl) (fun p' => eval_statements p' e r)
    end.
  Definition macro_input (ts : list token) : out (option (package source * packages)) := obind (parse_input [] ts) (eval_statements [] []).
End Macro.
(** lib.rs:16-22 [types_from_dsdl], 69-84 [eval_generate_function].  [print] is how the generated code is printed and read again as tokens. *)
Definition types_from_dsdl {Code} nfc powf sort_sets to_float (comments : key -> role -> text) (print : tree -> Code) (nothing : Code)
    env files_in (ts : list token) : out Code :=
  obind (macro_input env files_in ts) (fun x =>
  match x with
  | None => Done nothing
  | Some (p, e) => obind (compile_text nfc powf sort_sets to_float p) (fun c => obind (generate_code comments c e) (fun t => Done (print t)))
  end).
