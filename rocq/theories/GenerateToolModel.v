(** Model of the command-line tool canadensis_codegen_rust/src/main.rs, subcommand compile.

    - The third-party crate clap (4.1) is assumed: an option without an action stores its values and may occur once; with [num_args(0)]
      it is a flag whose default is false; positional arguments accumulate; [contains_id] is true of options with a default; [get_many]
      panics if the values were parsed to another type.  How clap splits the command line into options is left out: a command line is a
      list of occurrences.
    - Finding and reading DSDL files, compiling and generating are parameters; other models cover them.  Code is a list of pieces, as
      its [Display] writes them.
    - Of the file system there is the output file, on a device with room for some bytes.
    - Warnings and messages on standard error are left out. *)
From Verif Require Import Base.
Open Scope N_scope.

Definition text := list N.

(** [str::split] by a character *)
Fixpoint split_char (c : N) (t : text) : list text :=
  match t with
  | [] => [[]]
  | x :: r => if x =? c then [] :: split_char c r
              else match split_char c r with s :: ss => (x :: s) :: ss | [] => [[x]] end
  end.
(** [str::split] by a character twice, from the left *)
Fixpoint split_twice (c : N) (t : text) : list text :=
  match t with
  | [] => [[]]
  | x :: r =>
      match r with
      | y :: r' => if (x =? c) && (y =? c) then [] :: split_twice c r'
                   else match split_twice c r with s :: ss => (x :: s) :: ss | [] => [[x]] end
      | [] => [[x]]
      end
  end.
(** main.rs:181-198 [ExternalPackage], [ExternalPackage::parse] *)
Record external := External { ext_package : list text; ext_module : list text }.
Definition parse_external (t : text) : option external :=
  match split_char 44 t with
  | package :: rust_module :: _ => Some (External (split_char 46 package) (split_twice 58 rust_module))
  | _ => None
  end.

(** What can occur on the command line behind compile *)
Inductive occurrence := Input (path : text) | OutputFile (path : text) | ExternalPackage (values : list text) | Rustfmt.
(** The values that clap stores, with their types *)
Inductive stored := StoredString (s : text) | StoredExternal (e : external).
Record matches := Matches { m_inputs : list text; m_output : option text; m_external : option (list stored); m_rustfmt : option bool }.
Fixpoint parse_externals (ts : list text) : option (list stored) :=
  match ts with
  | [] => Some []
  | t :: r => match parse_external t, parse_externals r with Some e, Some es => Some (StoredExternal e :: es) | _, _ => None end
  end.
(** clap: one more occurrence; [None] is an error *)
Definition add_occurrence (m : matches) (o : occurrence) : option matches :=
  match o with
  | Input p => Some (Matches (m_inputs m ++ [p]) (m_output m) (m_external m) (m_rustfmt m))
  | OutputFile p => match m_output m with Some _ => None | None => Some (Matches (m_inputs m) (Some p) (m_external m) (m_rustfmt m)) end
  | ExternalPackage ts =>
      match m_external m with
      | Some _ => None
      | None => match parse_externals ts with Some es => Some (Matches (m_inputs m) (m_output m) (Some es) (m_rustfmt m)) | None => None end
      end
  | Rustfmt => match m_rustfmt m with Some _ => None | None => Some (Matches (m_inputs m) (m_output m) (m_external m) (Some true)) end
  end.
Fixpoint add_occurrences (m : matches) (os : list occurrence) : option matches :=
  match os with [] => Some m | o :: r => match add_occurrence m o with Some m' => add_occurrences m' r | None => None end end.
(** main.rs:111-148: the definition of the options, [get_matches]; "lib.rs" is the default of the output file *)
Definition default_output : text := [108; 105; 98; 46; 114; 115].
Definition get_matches (os : list occurrence) : option matches :=
  match add_occurrences (Matches [] None None None) os with
  | Some m =>
      match m_inputs m with
      | [] => None
      | _ => Some (Matches (m_inputs m) (Some (match m_output m with Some p => p | None => default_output end)) (m_external m)
                           (Some (match m_rustfmt m with Some b => b | None => false end)))
      end
  | None => None
  end.
(** clap [get_many::<String>] *)
Fixpoint strings (l : list stored) : res (list text) :=
  match l with
  | [] => Ok []
  | StoredString s :: r => match strings r with Ok ss => Ok (s :: ss) | Panic => Panic end
  | StoredExternal _ :: _ => Panic
  end.
Definition get_many_strings (o : option (list stored)) : res (option (list text)) :=
  match o with
  | None => Ok None
  | Some [] => Panic                                                    (* the type of the option's parser counts, without values too *)
  | Some l => match strings l with Ok ss => Ok (Some ss) | Panic => Panic end
  end.
(** clap [contains_id] *)
Definition contains_id (o : option bool) : bool := match o with Some _ => true | None => false end.
Fixpoint map_externals (ts : list text) : res (list (list text * list text)) :=
  match ts with
  | [] => Ok []
  | t :: r => match parse_external t, map_externals r with Some e, Ok es => Ok ((ext_package e, ext_module e) :: es) | _, _ => Panic end
  end.
(** main.rs:93-108 [Args], 110-172 [get_args], behind [get_matches] *)
Record arguments := Args { a_inputs : list text; a_output : text; a_externals : list (list text * list text); a_rustfmt : bool }.
Definition get_args (m : matches) : res arguments :=
  match m_output m with
  | None => Panic                                                                                               (* unwrap *)
  | Some output =>
      match get_many_strings (m_external m) with
      | Panic => Panic
      | Ok None => Ok (Args (m_inputs m) output [] (contains_id (m_rustfmt m)))
      | Ok (Some ts) => match map_externals ts with Ok es => Ok (Args (m_inputs m) output es (contains_id (m_rustfmt m))) | Panic => Panic end
      end
  end.

(** * The output file *)

(** A file that is open, and the room left on the device *)
Record device := Device { content : list N; room : nat }.
(** [File::write_all]: [false] is an error; what there was room for has been written *)
Definition dev_write (d : device) (l : list N) : device * bool :=
  (Device (content d ++ firstn (room d) l) (room d - length l), (length l <=? room d)%nat).
(** [BufWriter], with its default capacity of 8 KiB *)
Record writer := Writer { w_buffer : list N; w_device : device }.
Definition capacity : nat := 8 * 1024.
(** [BufWriter::flush_buf]: what could not be written stays in the buffer *)
Definition flush (w : writer) : writer * bool :=
  let '(d, ok) := dev_write (w_device w) (w_buffer w) in (Writer (skipn (room (w_device w)) (w_buffer w)) d, ok).
(** [BufWriter::write_all], [write_all_cold] *)
Definition buf_write (w : writer) (l : list N) : writer * bool :=
  let spare := (capacity - length (w_buffer w))%nat in
  if (length l <? spare)%nat then (Writer (w_buffer w ++ l) (w_device w), true)
  else
    let '(w, ok) := if (spare <? length l)%nat then flush w else (w, true) in
    if negb ok then (w, false)
    else if (capacity <=? length l)%nat then let '(d, ok) := dev_write (w_device w) l in (Writer (w_buffer w) d, ok)
    else (Writer (w_buffer w ++ l) (w_device w), true).
(** [write_fmt]: piece by piece, until there is an error *)
Fixpoint write_pieces (w : writer) (ps : list (list N)) : writer * bool :=
  match ps with [] => (w, true) | p :: r => let '(w, ok) := buf_write w p in if ok then write_pieces w r else (w, false) end.
(** [BufWriter::drop]: the error is dropped *)
Definition drop_writer (w : writer) : device := w_device (fst (flush w)).

(** What a user observes: the exit status, the output file (its path and content) if it was created, and whether rustfmt was started.
    Status 101 is a panic, 2 an error of clap's, and 255 (-1) another error. *)
Record finish := Finish { status : N; created : option (text * list N); rustfmt_started : bool }.

Section Tool.
Context (P C : Type) (empty : P) (add_files : P -> text -> option P) (compile : P -> option C)
        (generate : C -> list (list text * list text) -> option (list (list N))).
(** Can the output file be created, and how much room is there; what rustfmt makes of the file's content ([None]: it fails) *)
Context (creatable : text -> bool) (space : nat) (rustfmt : list N -> option (list N)).

Fixpoint add_all (p : P) (paths : list text) : option P :=
  match paths with [] => Some p | x :: r => match add_files p x with Some p' => add_all p' r | None => None end end.
(** main.rs:54-60: create, write, format; [writeln] adds a line feed *)
Definition write_output (output : text) (code : list (list N)) (format : bool) : finish :=
  if creatable output then
    let '(w, ok) := write_pieces (Writer [] (Device [] space)) (code ++ [[10]]) in
    let file := content (drop_writer w) in
    if negb ok then Finish 255 (Some (output, file)) false
    else if format then
      match rustfmt file with
      | Some file' => Finish 0 (Some (output, file')) true
      | None => Finish 255 (Some (output, file)) true
      end
    else Finish 0 (Some (output, file)) false
  else Finish 255 None false.
(** main.rs:23-67 [run], 13-21 [main] *)
Definition run_tool (os : list occurrence) : finish :=
  match get_matches os with
  | None => Finish 2 None false
  | Some m =>
      match get_args m with
      | Panic => Finish 101 None false
      | Ok a =>
          match add_all empty (a_inputs a) with
          | None => Finish 255 None false
          | Some p =>
              match compile p with
              | None => Finish 255 None false
              | Some c =>
                  match generate c (a_externals a) with
                  | None => Finish 255 None false
                  | Some code => write_output (a_output a) code (a_rustfmt a)
                  end
              end
          end
      end
  end.
End Tool.
