(** Model of documentation comments in DSDL files: canadensis_dsdl_frontend/src/compile.rs (lines 655-707, 796-841), and where comments are stored
    (compiled.rs, constants.rs, types/constant.rs).  What else the compiler does is in [CompModel].

    - The comments of a message, its constants and its fields or variants are kept beside the state of [CompModel], in the order of constants, and
      of fields or variants.  [End offsets] in the text are replaced by the number of the statement, which compares in the same way.
    - The documentation of a type is what the run of its own file leaves; other files do not touch it. *)
From Coq Require Import QArith Qcanon.
From Verif Require Import Base GenModel ExprModel PkgModel CompModel ParseModel.
Open Scope list_scope.
Open Scope N_scope.

(** types/constant.rs:80-85, compiled.rs: [append_comment], and compile.rs:669-673 *)
Definition append_comment (old t : text) : text := match old with [] => t | _ => old ++ 10 :: t end.

(** The comments of a message, and those of its constants and fields or variants with their positions *)
Record docs := Docs { type_doc : text; constant_docs : list (N * text); member_docs : list (N * text) }.
(** What is kept for a file: the comments of what follows the marker (or of all), those of the request, and the number of statements before *)
Record doc_state := DocState { doc_now : docs; doc_request : option docs; doc_position : N }.
Definition no_docs : docs := Docs [] [] [].

(** [last_mut] *)
Fixpoint last_of {A} (l : list A) : option A := match l with [] => None | [x] => Some x | _ :: r => last_of r end.
Fixpoint on_last {A} (f : A -> A) (l : list A) : list A := match l with [] => [] | [x] => [f x] | x :: r => x :: on_last f r end.
Definition to_constant (t : text) (d : docs) : docs := Docs (type_doc d) (on_last (fun x => (fst x, append_comment (snd x) t)) (constant_docs d)) (member_docs d).
Definition to_member (t : text) (d : docs) : docs := Docs (type_doc d) (constant_docs d) (on_last (fun x => (fst x, append_comment (snd x) t)) (member_docs d)).
(** compile.rs:796-841 [apply_comment_to_constant_or_field], [apply_comment_to_constant_or_variant] *)
Definition to_recent (t : text) (d : docs) : docs :=
  match last_of (constant_docs d), last_of (member_docs d) with
  | Some (c, _), Some (m, _) => if m <? c then to_constant t d else to_member t d
  | Some _, None => to_constant t d
  | None, Some _ => to_member t d
  | None, None => d
  end.
(** compile.rs:655-707 [handle_comment] *)
Definition handle_comment (f : file_state) (t : text) (d : docs) : docs :=
  let response := match fs_request f with Some _ => true | None => false end in
  match fs_body f with
  | BStart => match constant_docs d with [] => Docs (append_comment (type_doc d) t) (constant_docs d) (member_docs d) | _ => to_constant t d end
  | BStruct _ None _ => to_recent t d
  | BStruct _ (Some _) _ => d
  | BUnion _ UCollecting => to_recent t d
  | BUnion _ (UEnd _ _) => if response then d else to_recent t d
  | BUnion _ (UUsed _) => if response then to_recent t d else d
  end.
(** What statements do to the comments: a new constant, field or variant has none; at the marker (compile.rs:459-510) the request takes all *)
Definition doc_statement (st : statement) (d : doc_state) : doc_state :=
  let now := doc_now d in
  let n := doc_position d in
  match st with
  | SConstant _ _ _ => DocState (Docs (type_doc now) (constant_docs now ++ [(n, [])]) (member_docs now)) (doc_request d) (n + 1)
  | SField _ _ | SPadding _ => DocState (Docs (type_doc now) (constant_docs now) (member_docs now ++ [(n, [])])) (doc_request d) (n + 1)
  | SMarker => DocState no_docs (Some now) (n + 1)
  | SDirective _ _ => DocState now (doc_request d) (n + 1)
  end.

Section Compile.
Context (nfc : text -> text) (powf : Qc -> Qc -> option Qc) (sort_sets : list (list value) -> list (list value)) (to_float : nat -> Qc -> option N).
Section Items.
Context (by_key : key -> persistent -> out (compiled * persistent)).
(** compile.rs:287-339 *)
Fixpoint run_items (is : list item) (s : state) (d : doc_state) : out (state * doc_state) :=
  match is with
  | [] => Done (s, d)
  | IStatement st :: r => obind (run_statement nfc powf sort_sets to_float by_key st s) (fun s' => run_items r s' (doc_statement st d))
  | IComment t :: r => run_items r s (DocState (handle_comment (snd s) t (doc_now d)) (doc_request d) (doc_position d))
  end.
(** compile.rs:274-345 [compile_one_inner] *)
Definition compile_items (k : key) (is : list item) (port : option N) (p : persistent) : out (compiled * doc_state * persistent) :=
  obind (run_items is (p, FileState (key_path k) [] false None BStart) (DocState no_docs None 0)) (fun r =>
    obind (finish (snd (fst r)) port) (fun c => Done (c, snd r, fst (fst r)))).
End Items.
(** compile.rs:263-272 [compile_one]; references to other types are resolved as in [CompModel] *)
Definition compile_one_items (fuel : nat) (k : key) (is : list item) (port : option N) (p : persistent) : out (compiled * doc_state * persistent) :=
  match fuel with
  | O => Crash
  | S n => compile_items (type_by_key (fun _ => Crash) (compile_one nfc powf sort_sets to_float (fun _ => Crash) n)) k is port p
  end.
End Compile.
