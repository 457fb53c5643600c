(** Model of the compiler of DSDL files: canadensis_dsdl_frontend/src/{compile,compiled,constants}.rs, types/directive.rs and the parts of
    types.rs and types/{expression,constant}.rs that make types and constants.

    - A file is its parsed statements ([None]: it cannot be read or parsed) and its port ID.  Comments, positions in the text, warnings and what
      an error says are left out.
    - The map of files to be compiled is a list in the order of the map.
    - [usize] is not bounded. *)
From Coq Require Import QArith Qcanon.
From Verif Require Import Base BlsModel GenModel ExprModel PkgModel.
Open Scope list_scope.
Open Scope N_scope.

(** * Compiled types *)

(** types/constant.rs:15-29 [Constant] *)
Record constant := Constant { constant_type : prim; constant_dsdl : value; constant_val : constant_value }.
(** compiled.rs:78-83 [Extent] *)
Inductive extent := Sealed | Delimited (bits : N).
(** types.rs:570-577 [ResolvedScalarType], 496-507 [ResolvedType] *)
Inductive rscalar (M : Type) := RComposite (k : key) (m : M) | RPrimitive (p : prim) | RVoid (bits : N).
Arguments RComposite {M} k m. Arguments RPrimitive {M} p. Arguments RVoid {M} bits.
Inductive ftype (M : Type) := FScalar (s : rscalar M) | FFixed (s : rscalar M) (len : N) | FVariable (s : rscalar M) (max_len : N).
Arguments FScalar {M} s. Arguments FFixed {M} s len. Arguments FVariable {M} s max_len.
(** compiled.rs:106-115, 144-147 [Field], [FieldKind] *)
Inductive field (M : Type) := FPadding (bits : N) (always_aligned : bool) | FData (t : ftype M) (name : text) (always_aligned : bool).
Arguments FPadding {M} bits always_aligned. Arguments FData {M} t name always_aligned.
(** compiled.rs:86-102 [MessageKind], 188-197 [Variant] *)
Inductive ckind (M : Type) := CStruct (fields : list (field M)) | CUnion (discriminant : N) (variants : list (ftype M * text)).
Arguments CStruct {M} fields. Arguments CUnion {M} discriminant variants.
(** compiled.rs:30-41 [Message] *)
Inductive cmessage := CMessage (deprecated : bool) (e : extent) (k : ckind cmessage) (length : operator) (constants : list (text * constant)).
(** compiled.rs:12-26 [CompiledDsdl], [DsdlKind] *)
Inductive dsdl_kind := KMessage (m : cmessage) | KService (request response : cmessage).
Record compiled := Compiled { port_id : option N; compiled_kind : dsdl_kind }.

Definition c_deprecated (m : cmessage) : bool := match m with CMessage d _ _ _ _ => d end.
Definition c_extent (m : cmessage) : extent := match m with CMessage _ e _ _ _ => e end.
Definition c_kind (m : cmessage) : ckind cmessage := match m with CMessage _ _ k _ _ => k end.
Definition c_length (m : cmessage) : operator := match m with CMessage _ _ _ l _ => l end.
Definition c_constants (m : cmessage) : list (text * constant) := match m with CMessage _ _ _ _ c => c end.

(** types.rs:579-589, 510-518 [size] *)
Definition rscalar_size (s : rscalar cmessage) : operator :=
  match s with RComposite _ m => c_length m | RPrimitive p => bls_single (N.of_nat (prim_bits p)) | RVoid bits => bls_single bits end.
Definition ftype_size (t : ftype cmessage) : operator :=
  match t with
  | FScalar s => rscalar_size s
  | FFixed s len => bls_repeat (rscalar_size s) len
  | FVariable s max_len => bls_repeat_range (rscalar_size s) max_len
  end.
(** types.rs:557-563 [scalar] *)
Definition ftype_scalar (t : ftype cmessage) : rscalar cmessage := match t with FScalar s | FFixed s _ | FVariable s _ => s end.
(** types.rs:591-596, 519-526 [alignment] *)
Definition rscalar_alignment (s : rscalar cmessage) : N := match s with RComposite _ _ => 8 | _ => 1 end.
Definition ftype_alignment (t : ftype cmessage) : N := rscalar_alignment (ftype_scalar t).
(** types.rs:529-542, 610-618 [implicit_field], as a number of bits *)
Definition ftype_implicit (t : ftype cmessage) : option N :=
  match t with
  | FScalar (RComposite _ m) => match c_extent m with Sealed => None | Delimited _ => Some 32 end
  | FScalar _ | FFixed _ _ => None
  | FVariable _ max_len => Some (array_length_bits max_len)
  end.

(** * Files *)

(** canadensis_dsdl_parser: [Type] *)
Inductive stype := TypeScalar (s : tscalar) | TypeArray (s : tscalar) (k : array_kind) (n : expr).
(** directive.rs:13, 24, ...: the names of directives *)
Inductive directive := DUnion | DExtent | DSealed | DDeprecated | DAssert | DPrint | DOther.
(** canadensis_dsdl_parser: [Statement] *)
Inductive statement :=
| SDirective (d : directive) (e : option expr)
| SConstant (t : prim) (name : text) (e : expr)
| SField (t : stype) (name : text)
| SPadding (bits : N)
| SMarker.
(** package.rs:256-261 [DsdlFile] *)
Record file := File { file_content : option (list statement); file_port : option N }.

(** * The state of the compiler *)

(** compile.rs:860-879 [StructState], [UnionState] *)
Inductive union_state := UCollecting | UUsed (length : operator) | UEnd (e : extent) (length : operator).
(** compile.rs:843-857 [State]: what follows the marker, or the whole file if there is none *)
Inductive body :=
| BStart
| BStruct (fields : list (field cmessage)) (ended : option extent) (length : operator)
| BUnion (variants : list (ftype cmessage * text)) (u : union_state).
(** compile.rs:422-437 [FileState]; the request if the marker was met *)
Record file_state := FileState { fs_path : list text; fs_constants : list (text * constant); fs_deprecated : bool; fs_request : option cmessage; fs_body : body }.
Definition set_body (f : file_state) (b : body) : file_state := FileState (fs_path f) (fs_constants f) (fs_deprecated f) (fs_request f) b.
(** compile.rs:231-238 [PersistentContext] *)
Record persistent := Persistent { pending : list (key * file); done : list (key * compiled) }.

(** compile.rs:979-1003 [calculate_discriminant_bits], [make_union_bit_length] *)
Definition make_union_length (vs : list (ftype cmessage * text)) : operator :=
  bls_concatenate (bls_single (discriminant_bits (length vs)))
    [match map (fun v => ftype_size (fst v)) vs with [] => bls_single 0 | s :: r => fold_left (fun a b => bls_unite a [b]) r s end].

(** compile.rs:881-977 [apply_sealed_or_extent] *)
Definition apply_extent (e : extent) (b : body) : out body :=
  match b with
  | BStart => Done (BStruct [] (Some e) (bls_single 0))
  | BStruct fs None l => Done (BStruct fs (Some e) l)
  | BStruct _ (Some _) _ => Fail
  | BUnion vs UCollecting => if (2 <=? length vs)%nat then Done (BUnion vs (UEnd e (make_union_length vs))) else Fail
  | BUnion vs (UUsed l) => if (2 <=? length vs)%nat then Done (BUnion vs (UEnd e l)) else Fail
  | BUnion _ (UEnd _ _) => Fail
  end.
(** compile.rs:144-162 [handle_union] *)
Definition handle_union (b : body) : out body := match b with BStart => Done (BUnion [] UCollecting) | _ => Fail end.
(** compile.rs:177-219 [handle_deprecated] *)
Definition handle_deprecated (f : file_state) : out file_state :=
  let yes := FileState (fs_path f) (fs_constants f) true (fs_request f) (fs_body f) in
  if fs_deprecated f then Fail
  else match fs_request f with
       | Some _ => Fail
       | None => match fs_body f with BStart | BUnion [] UCollecting => Done yes | _ => Fail end
       end.
(** compile.rs:512-556 [add_padding_field] *)
Definition add_padding (bits : N) (b : body) : out body :=
  match b with
  | BStart => Done (BStruct [FPadding bits true] None (bls_single bits))
  | BStruct fs None l =>
      obind (of_res (bls_is_byte_aligned l)) (fun aligned => Done (BStruct (fs ++ [FPadding bits aligned]) None (bls_concatenate l [bls_single bits])))
  | _ => Fail
  end.
(** compile.rs:308-324, 567-572: the length with the implicit field, and the length of the struct after the field *)
Definition field_length (t : ftype cmessage) : operator :=
  match ftype_implicit t with Some bits => bls_concatenate (ftype_size t) [bls_single bits] | None => ftype_size t end.
Definition update_length (t : ftype cmessage) (l : operator) : operator :=
  bls_pad (bls_concatenate (bls_pad l (ftype_alignment t)) [field_length t]) (ftype_alignment t).
Definition field_name {M} (f : field M) : option text := match f with FPadding _ _ => None | FData _ name _ => Some name end.
Definition has_name {M} (name : text) (f : field M) : bool := match field_name f with Some n => text_eqb n name | None => false end.
(** compile.rs:558-653 [add_field] *)
Definition add_field (t : ftype cmessage) (name : text) (b : body) : out body :=
  match b with
  | BStart => Done (BStruct [FData t name true] None (update_length t (bls_single 0)))
  | BStruct fs None l =>
      if existsb (has_name name) fs then Fail
      else obind (of_res (bls_is_byte_aligned l)) (fun aligned => Done (BStruct (fs ++ [FData t name aligned]) None (update_length t l)))
  | BUnion vs UCollecting => if existsb (fun v => text_eqb (snd v) name) vs then Fail else Done (BUnion (vs ++ [(t, name)]) UCollecting)
  | _ => Fail
  end.
(** compile.rs:379-399 [check_deprecated_in_non_deprecated]; true: no error *)
Definition check_deprecated (f : file_state) (t : ftype cmessage) : bool :=
  match ftype_scalar t with RComposite _ m => fs_deprecated f || negb (c_deprecated m) | _ => true end.
(** the message that a finished body makes; [pad]: to a multiple of 8 bits *)
Definition message_of (f : file_state) (pad : bool) : out cmessage :=
  let padded l := if pad then bls_pad l 8 else l in
  match fs_body f with
  | BStruct fs (Some e) l => Done (CMessage (fs_deprecated f) e (CStruct fs) (padded l) (fs_constants f))
  | BUnion vs (UEnd e l) => Done (CMessage (fs_deprecated f) e (CUnion (discriminant_bits (length vs)) vs) (padded l) (fs_constants f))
  | _ => Fail
  end.
(** compile.rs:459-510 [handle_service_response_marker] *)
Definition handle_marker (f : file_state) : out file_state :=
  match fs_request f with
  | Some _ => Fail
  | None => obind (message_of f false) (fun m => Done (FileState (fs_path f) [] (fs_deprecated f) (Some m) BStart))
  end.
(** compile.rs:709-794 [finish] *)
Definition finish (f : file_state) (port : option N) : out compiled :=
  obind (message_of f true) (fun m => Done (Compiled port (match fs_request f with None => KMessage m | Some r => KService r m end))).

Section Compile.
(** third-party functions, as in [ExprModel] *)
Context (nfc : text -> text) (powf : Qc -> Qc -> option Qc) (sort_sets : list (list value) -> list (list value)) (to_float : nat -> Qc -> option N).

Section Statements.
Context (by_key : key -> persistent -> out (compiled * persistent)).
Definition state : Type := persistent * file_state.
(** compile.rs:72-117 [bit_length_set] *)
Definition offset (s : state) : operator * state :=
  match fs_body (snd s) with
  | BStart => (bls_single 0, s)
  | BStruct _ _ l | BUnion _ (UUsed l) | BUnion _ (UEnd _ l) => (l, s)
  | BUnion vs UCollecting => let l := make_union_length vs in (l, (fst s, set_body (snd s) (BUnion vs (UUsed l))))
  end.
Definition constants_of (s : state) : list (text * value) := map (fun c => (fst c, constant_dsdl (snd c))) (fs_constants (snd s)).
(** compile.rs:129-142 [type_by_key] *)
Definition canonical (f : file_state) (k : key) : key := match key_path k with [] => Key (fs_path f) (key_name k) (key_major k) (key_minor k) | _ => k end.
Definition lookup_type (k : key) (s : state) : out (compiled * state) :=
  obind (by_key (canonical (snd s) k) (fst s)) (fun r => Done (fst r, (snd r, snd s))).
(** types.rs:265-279, operators/attribute.rs: what an expression sees of a type *)
Definition lookup (k : key) (s : state) : out (option (operator * list (text * value)) * state) :=
  obind (lookup_type k s) (fun r =>
    Done (match compiled_kind (fst r) with
          | KMessage m => Some (c_length m, map (fun c => (fst c, constant_dsdl (snd c))) (c_constants m))
          | KService _ _ => None
          end, snd r)).
Definition evaluate (e : expr) (s : state) : out (value * state) := eval nfc powf sort_sets state offset constants_of lookup e s.

Definition with_body (s : state) (r : out body) : out state := obind r (fun b => Done (fst s, set_body (snd s) b)).
(** directive.rs:8-119 [evaluate_directive] *)
Definition evaluate_directive (d : directive) (e : option expr) (s : state) : out state :=
  match d, e with
  | DUnion, None => with_body s (handle_union (fs_body (snd s)))
  | DExtent, Some e =>
      obind (evaluate e s) (fun r =>
        match fst r with
        | VRat q => match qint q with
                    | Some z => if (0 <=? z)%Z && (z <? 2 ^ 64)%Z && (z mod 8 =? 0)%Z
                                then with_body (snd r) (apply_extent (Delimited (Z.to_N z)) (fs_body (snd (snd r)))) else Fail
                    | None => Fail
                    end
        | _ => Fail
        end)
  | DSealed, None => with_body s (apply_extent Sealed (fs_body (snd s)))
  | DDeprecated, None => obind (handle_deprecated (snd s)) (fun f => Done (fst s, f))
  | DAssert, Some e => obind (evaluate e s) (fun r => match fst r with VBool true => Done (snd r) | _ => Fail end)
  | DPrint, None => Done s
  | DPrint, Some e => obind (evaluate e s) (fun r => Done (snd r))
  | _, _ => Fail
  end.
(** compile.rs:292-304, types/constant.rs:31-59 [evaluate] *)
Definition evaluate_constant (t : prim) (name : text) (e : expr) (s : state) : out state :=
  if existsb (fun c => text_eqb (fst c) name) (fs_constants (snd s)) then Fail
  else if is_reserved_keyword name then Fail
  else obind (evaluate e s) (fun r => obind (check_constant to_float t (fst r)) (fun c =>
    let f := snd (snd r) in
    Done (fst (snd r), FileState (fs_path f) (fs_constants f ++ [(name, Constant t (fst r) c)]) (fs_deprecated f) (fs_request f) (fs_body f)))).
(** types/expression.rs:337-381 [convert_type] *)
Definition convert_type (t : stype) (s : state) : out (dtype * state) :=
  match t with
  | TypeScalar x => Done (DScalar x, s)
  | TypeArray x k n => obind (evaluate n s) (fun r => obind (array_length (fst r)) (fun n => obind (array_type x k n) (fun t => Done (t, snd r))))
  end.
(** types.rs:92-109, 239-262 [resolve] *)
Definition resolve_scalar (t : tscalar) (s : state) : out (rscalar cmessage * state) :=
  match t with
  | Versioned k =>
      obind (lookup_type k s) (fun r => match compiled_kind (fst r) with
                                        | KMessage m => Done (RComposite (canonical (snd s) k) m, snd r)
                                        | KService _ _ => Fail
                                        end)
  | Primitive p => Done (RPrimitive p, s)
  | Void bits => Done (RVoid bits, s)
  end.
Definition resolve (t : dtype) (s : state) : out (ftype cmessage * state) :=
  match t with
  | DScalar x => obind (resolve_scalar x s) (fun r => Done (FScalar (fst r), snd r))
  | DFixed x n => obind (resolve_scalar x s) (fun r => Done (FFixed (fst r) n, snd r))
  | DVariable x n => obind (resolve_scalar x s) (fun r => Done (FVariable (fst r) n, snd r))
  end.
(** compile.rs:288-338 *)
Definition run_statement (st : statement) (s : state) : out state :=
  match st with
  | SDirective d e => evaluate_directive d e s
  | SConstant t name e => evaluate_constant t name e s
  | SField t name =>
      obind (convert_type t s) (fun r => obind (resolve (fst r) (snd r)) (fun r =>
        if check_deprecated (snd (snd r)) (fst r) then with_body (snd r) (add_field (fst r) name (fs_body (snd (snd r)))) else Fail))
  | SPadding bits => with_body s (add_padding bits (fs_body (snd s)))
  | SMarker => obind (handle_marker (snd s)) (fun f => Done (fst s, f))
  end.
Fixpoint run (sts : list statement) (s : state) : out state := match sts with [] => Done s | st :: r => obind (run_statement st s) (run r) end.
(** compile.rs:274-345 [compile_one_inner] *)
Definition compile_file (k : key) (f : file) (p : persistent) : out (compiled * persistent) :=
  match file_content f with
  | None => Fail
  | Some sts => obind (run sts (p, FileState (key_path k) [] false None BStart)) (fun s => obind (finish (snd s) (file_port f)) (fun c => Done (c, fst s)))
  end.
End Statements.

(** [BTreeMap::remove] *)
Fixpoint remove_key {A} (k : key) (l : list (key * A)) : list (key * A) :=
  match l with [] => [] | e :: r => if key_eqb (fst e) k then r else e :: remove_key k r end.

(** What happens when the fuel runs out (which stands for a recursion or a loop that does not end) and at the two assertions that a type was not
    compiled before.  Theorem C95 is that it makes no difference. *)
Section Stop.
Context (stop : forall A : Type, out A).
(** compile.rs:351-374 [type_by_key], given what compiles a file *)
Definition type_by_key (compile_one : key -> file -> persistent -> out (compiled * persistent)) (k : key) (p : persistent) : out (compiled * persistent) :=
  let otherwise :=
    match find_key k (pending p) with
    | Some (_, f) =>
        obind (compile_one k f (Persistent (remove_key k (pending p)) (done p))) (fun r =>
          match find_key k (done (snd r)) with
          | None => Done (fst r, Persistent (pending (snd r)) (done (snd r) ++ [(k, fst r)]))
          | Some _ => stop _
          end)
    | None => Fail
    end in
  match find_key k (done p) with
  | Some (k', c) => if key_eqb_exact k' k then Done (c, p) else otherwise
  | None => otherwise
  end.
(** compile.rs:263-272 [compile_one]; [fuel] bounds how deep types refer to each other.  Every level takes a file from those pending, so the
    number of files is enough (theorem C95). *)
Fixpoint compile_one (fuel : nat) (k : key) (f : file) (p : persistent) {struct fuel} : out (compiled * persistent) :=
  match fuel with O => stop _ | S n => compile_file (type_by_key (compile_one n)) k f p end.
(** compile.rs:241-261 [compile]; [fuel] bounds the rounds of the loop *)
Fixpoint compile_all (fuel : nat) (p : persistent) {struct fuel} : out (list (key * compiled)) :=
  match pending p with
  | [] => Done (done p)
  | (k, f) :: r =>
      match fuel with
      | O => stop _
      | S n =>
          obind (compile_one fuel k f (Persistent r (done p))) (fun x =>
            match find_key k (done (snd x)) with
            | None => compile_all n (Persistent (pending (snd x)) (done (snd x) ++ [(k, fst x)]))
            | Some _ => stop _
            end)
      end
  end.
Definition compile_with (fuel : nat) (files : list (key * file)) : out (list (key * compiled)) := compile_all fuel (Persistent files []).
End Stop.
(** compile.rs:35-42 [compile] *)
Definition compile (files : list (key * file)) : out (list (key * compiled)) := compile_with (fun _ => Crash) (length files) files.
End Compile.
