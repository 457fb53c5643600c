(** Model of the generator of Rust code: canadensis_codegen_rust/src/{lib,module_tree,struct_as_enum,impl_constants,impl_data_type}.rs.
    What the generated [Serialize] and [Deserialize] do is in [GenModel].

    - The generated code is a tree of modules with items, not text: types with their names, fields and variants, and constants for port IDs.
      The types of fields are trees too.  Formatting, documentation comments, attributes and lints are left out.
    - A compiled package is a list of types, in the order of the map.  Integers have at most 64 bits (the parser ensures it), so
      [round_up_integer_size] does not panic.
    - [heck] (third party, version 0.5) is transcribed for ASCII; the names of types in packages are ASCII.
    - [comments key role] is what [Message::comments] returns. *)
From Coq Require Import String.
From Verif Require Import Base EncModel EncSpec BlsModel GenModel ExprModel PkgModel CompModel.
Open Scope list_scope.
Open Scope N_scope.

(** * Names *)

Definition alphanumeric (c : N) : bool := upper c || lower c || digit c.
Inductive word_mode := Boundary | Lowercase | Uppercase.
(** heck: [transform], for one part between characters that are not alphanumeric; [w] is the word so far *)
Definition next_mode (m : word_mode) (c : N) : word_mode := if lower c then Lowercase else if upper c then Uppercase else m.
Fixpoint words_of (m : word_mode) (w s : text) : list text :=
  match s with
  | [] => []
  | c :: r =>
      match r with
      | [] => [w ++ [c] ]
      | n :: _ =>
          if match next_mode m c with Lowercase => upper n | _ => false end then (w ++ [c]) :: words_of Boundary [] r
          else if match m with Uppercase => upper c && lower n | _ => false end then w :: words_of Boundary [c] r
          else words_of (next_mode m c) (w ++ [c]) r
      end
  end.
(** [str::split] at characters that are not alphanumeric *)
Fixpoint split_words (s : text) : list text :=
  match s with
  | [] => [ [] ]
  | c :: r => if alphanumeric c then match split_words r with [] => [ [c] ] | w :: ws => (c :: w) :: ws end else [] :: split_words r
  end.
Definition words (s : text) : list text := flat_map (words_of Boundary []) (split_words s).
Definition underscore : N := 95.
Fixpoint join_words (ws : list text) : text := match ws with [] => [] | [w] => w | w :: r => w ++ underscore :: join_words r end.
(** heck: [to_snake_case], [to_upper_camel_case] *)
Definition snake (s : text) : text := join_words (map lowercase (words s)).
Definition upper_char (c : N) : N := if lower c then c - 32 else c.
Definition capitalize (w : text) : text := match w with [] => [] | c :: r => upper_char c :: lowercase r end.
Definition camel (s : text) : text := flat_map capitalize (words s).

(** lib.rs:727-735 [make_rust_identifier] *)
Definition make_rust_identifier (s : text) : text := if text_eqb s [underscore] then [underscore; 48] else s.

(** lib.rs:78-97 [external_module]; [packages] is the map from DSDL packages to Rust modules, [n] is the length of the prefix *)
Definition packages : Type := list (list text * list text).
Definition get_package (e : packages) (p : list text) : option (list text) := option_map snd (find (fun x => path_eqb (fst x) p) e).
Fixpoint external_prefix (e : packages) (p : list text) (n : nat) : option (list text) :=
  match n with
  | O => None
  | S k => match get_package e (firstn n p) with Some rust => Some (rust ++ skipn n p) | None => external_prefix e p k end
  end.
Definition external_module (p : list text) (e : packages) : option (list text) := external_prefix e p (length p).

(** lib.rs:648-655 [RustTypeName] *)
Record rust_name := RustName { internal : bool; module_path : list text; type_name : text }.
(** lib.rs:662-667 *)
Definition version_module (k : key) : text := snake (key_name k) ++ underscore :: show_u8 (key_major k) ++ underscore :: show_u8 (key_minor k).
(** lib.rs:657-701 [for_message_type] *)
Definition for_message_type (k : key) (e : packages) : rust_name :=
  match external_module (key_path k) e with
  | Some m => RustName false (m ++ [version_module k]) (make_rust_identifier (key_name k))
  | None => RustName true (map make_rust_identifier (key_path k) ++ [version_module k]) (make_rust_identifier (key_name k))
  end.
Definition with_suffix (n : rust_name) (s : string) : rust_name := RustName (internal n) (module_path n) (type_name n ++ name_of s).
(** lib.rs:709-725 [for_service_type] *)
Definition for_service_type (k : key) (e : packages) : rust_name * rust_name :=
  let base := for_message_type k e in (with_suffix base "Request", with_suffix base "Response").

(** * Items *)

(** The types of Rust that are generated: lib.rs:581-635 *)
Inductive rust_type :=
| RustBool | RustUnsigned (bits : nat) | RustSigned (bits : nat) | RustF16 | RustF32 | RustF64 | RustUnit
| RustNamed (n : rust_name)
| RustArray (t : rust_type) (len : N) | RustVec (t : rust_type) (max_len : N) | RustBitArray (bytes : N).
(** lib.rs:616-635 [scalar_to_rust_type] *)
Definition scalar_to_rust (s : rscalar cmessage) (e : packages) : rust_type :=
  match s with
  | RComposite k _ => RustNamed (for_message_type k e)
  | RPrimitive PBool => RustBool
  | RPrimitive (PByte | PUtf8) => RustUnsigned 8
  | RPrimitive (PInt bits) => RustSigned (round_up_integer_size bits)
  | RPrimitive (PUInt bits) => RustUnsigned (round_up_integer_size bits)
  | RPrimitive PFloat16 => RustF16
  | RPrimitive PFloat32 => RustF32
  | RPrimitive PFloat64 => RustF64
  | RVoid _ => RustUnit
  end.
(** lib.rs:581-614 [to_rust_type] *)
Definition to_rust (t : ftype cmessage) (e : packages) : rust_type :=
  match t with
  | FScalar s => scalar_to_rust s e
  | FFixed (RPrimitive PBool) len | FVariable (RPrimitive PBool) len => RustBitArray ((len + 7) / 8)
  | FFixed s len => RustArray (scalar_to_rust s e) len
  | FVariable s max_len => RustVec (scalar_to_rust s e) max_len
  end.

(** lib.rs:566-573 [MessageRole] *)
Inductive role := RoleMessage | RoleRequest | RoleResponse.
(** lib.rs:437-451 [GeneratedField], [GeneratedDataField] *)
Inductive gfield := GPadding (bits : N) | GData (name : text) (rust : rust_type) (t : ftype cmessage) (always_aligned : bool).
(** lib.rs:536-543 [GeneratedVariant] *)
Record gvariant := GVariant { v_discriminant : N; v_name : text; v_type : option (rust_type * ftype cmessage) }.
(** lib.rs:292-295, 433-435, 528-533 [GeneratedTypeKind], [GeneratedStruct], [GeneratedEnum] *)
Inductive gkind := GStruct (fields : list gfield) | GEnum (discriminant_bits : N) (variants : list gvariant).
(** lib.rs:280-290 [GeneratedType] *)
Record gtype := GType { g_key : key; g_name : rust_name; g_size : operator; g_extent : extent; g_role : role; g_kind : gkind; g_constants : list (text * constant); g_deprecated : bool }.
(** lib.rs:252-261 [GeneratedItem]; the constants are port IDs, with the number in the call to [from_truncating] *)
Inductive port_kind := PortSubject | PortService.
Inductive item := IType (g : gtype) | IConstant (name : rust_name) (k : port_kind) (literal : N) (deprecated : bool).
(** lib.rs:264-277 [name], [deprecated] *)
Definition item_name (i : item) : rust_name := match i with IType g => g_name g | IConstant n _ _ _ => n end.
Definition item_deprecated (i : item) : bool := match i with IType g => g_deprecated g | IConstant _ _ _ d => d end.
(** canadensis_core/src/lib.rs:48-50, 112-114 [from_truncating] of the literal; [None]: no [u16], so the generated code does not compile *)
Definition port_value (k : port_kind) (literal : N) : option N :=
  if literal <? 2 ^ 16 then Some (N.land literal (match k with PortSubject => 8191 | PortService => 511 end)) else None.

(** lib.rs:545-563 [GeneratedVariant::new] *)
Definition make_variant (discriminant : N) (t : option (ftype cmessage)) (name : text) (e : packages) : gvariant :=
  GVariant discriminant (camel (make_rust_identifier name)) (option_map (fun t => (to_rust t e, t)) t).
(** lib.rs:310-323, 510-526 *)
Definition make_field (e : packages) (f : field cmessage) : gfield :=
  match f with FPadding bits _ => GPadding bits | FData t name aligned => GData (make_rust_identifier name) (to_rust t e) t aligned end.
(** lib.rs:348-361: the variants of a union, from number [i] *)
Fixpoint make_variants (e : packages) (i : N) (vs : list (ftype cmessage * text)) : out (list gvariant) :=
  match vs with
  | [] => Done []
  | (t, name) :: r => if i <? 2 ^ 32 then obind (make_variants e (i + 1) r) (fun l => Done (make_variant i (Some t) name e :: l)) else Crash
  end.

(** struct_as_enum.rs:30-37 [has_enum_directive]: a line that begins with the directive *)
Definition enum_directive : text := name_of "[canadensis(enum)]".
Fixpoint starts_with (p s : text) : bool := match p, s with [], _ => true | x :: p, y :: s => (x =? y) && starts_with p s | _, [] => false end.
Fixpoint has_at_line (line_start : bool) (s : text) : bool :=
  (line_start && starts_with enum_directive s) || match s with [] => false | c :: r => has_at_line (c =? 10) r end.
Definition has_enum_directive (comments : text) : bool := has_at_line true comments.

(** struct_as_enum.rs:72-106: the constants have the type of the field, and distinct values; [used] are the values before *)
Fixpoint check_constants (bits : nat) (used : list Z) (cs : list (text * constant)) : out unit :=
  match cs with
  | [] => Done tt
  | (_, c) :: r =>
      match constant_type c with
      | PUInt b => if (b =? bits)%nat
                   then match constant_val c with
                        | CInt z => if existsb (Z.eqb z) used then Fail else check_constants bits (z :: used) r
                        | _ => Crash
                        end
                   else Fail
      | _ => Fail
      end
  end.
(** struct_as_enum.rs:108-123; the variants have no data *)
Fixpoint constant_variants (e : packages) (cs : list (text * constant)) : out (list gvariant) :=
  match cs with
  | [] => Done []
  | (name, c) :: r =>
      match constant_val c with
      | CInt z => if (0 <=? z)%Z && (z <? 2 ^ 32)%Z then obind (constant_variants e r) (fun l => Done (make_variant (Z.to_N z) None name e :: l)) else Crash
      | _ => Crash
      end
  end.
(** struct_as_enum.rs:39-140 [generate_enum_from_struct] *)
Definition enum_from_struct (k : key) (n : rust_name) (r : role) (m : cmessage) (fs : list (field cmessage)) (e : packages) : out gtype :=
  match fs with
  | [FData (FScalar (RPrimitive (PUInt bits))) _ _] =>
      obind (check_constants bits [] (c_constants m)) (fun _ => obind (constant_variants e (c_constants m)) (fun vs =>
        Done (GType k n (c_length m) (c_extent m) r (GEnum (N.of_nat bits) vs) [] (c_deprecated m))))
  | _ => Fail
  end.
(** lib.rs:191-250 [generate_rust_type], 297-400 *)
Definition generate_rust_type (k : key) (m : cmessage) (n : rust_name) (r : role) (comments : text) (e : packages) : out gtype :=
  match c_kind m with
  | CStruct fs =>
      if has_enum_directive comments then enum_from_struct k n r m fs e
      else Done (GType k n (c_length m) (c_extent m) r (GStruct (map (make_field e) fs)) (c_constants m) (c_deprecated m))
  | CUnion bits vs =>
      if has_enum_directive comments then Fail
      else obind (make_variants e 0 vs) (fun l => Done (GType k n (c_length m) (c_extent m) r (GEnum bits l) (c_constants m) (c_deprecated m)))
  end.
Definition constant_name (n : rust_name) (s : string) : rust_name := RustName true (module_path n) (name_of s).
(** lib.rs:99-184 [generate_from_dsdl] *)
Definition generate_from_dsdl (comments : key -> role -> text) (k : key) (c : compiled) (e : packages) : out (list item) :=
  match compiled_kind c with
  | KMessage m =>
      let n := for_message_type k e in
      obind (generate_rust_type k m n RoleMessage (comments k RoleMessage) e) (fun g =>
        Done (match port_id c with Some id => [IConstant (constant_name n "SUBJECT") PortSubject id (c_deprecated m)] | None => [] end ++ [IType g]))
  | KService request response =>
      let (n, n') := for_service_type k e in
      obind (generate_rust_type k request n RoleRequest (comments k RoleRequest) e) (fun g =>
      obind (generate_rust_type k response n' RoleResponse (comments k RoleResponse) e) (fun g' =>
        Done (match port_id c with Some id => [IConstant (constant_name n "SERVICE") PortService id (c_deprecated request)] | None => [] end ++ [IType g; IType g'])))
  end.

(** * Modules *)

(** module_tree.rs:7-12 [ModuleTree] *)
Inductive tree := Tree (items : list item) (children : list (text * tree)).
Definition empty_tree : tree := Tree [] [].
(** module_tree.rs:22: [entry(..).or_default()] and what is done with it *)
Definition update_child (f : tree -> tree) (name : text) : list (text * tree) -> list (text * tree) :=
  fix go l := match l with
              | [] => [(name, f empty_tree)]
              | (n, t) :: r => if text_eqb n name then (n, f t) :: r else (n, t) :: go r
              end.
(** module_tree.rs:15-26 [add_item] *)
Fixpoint add_item (i : item) (path : list text) (t : tree) {struct path} : tree :=
  match t with
  | Tree items children => match path with [] => Tree (items ++ [i]) children | p :: r => Tree items (update_child (add_item i r) p children) end
  end.
(** module_tree.rs:29-40 [from_iter] *)
Definition tree_of (l : list item) : tree := fold_left (fun t i => add_item i (module_path (item_name i)) t) l empty_tree.
(** lib.rs:59-71: the items that are generated *)
Fixpoint generate_items (comments : key -> role -> text) (e : packages) (package : list (key * compiled)) : out (list item) :=
  match package with
  | [] => Done []
  | (k, c) :: r =>
      match external_module (key_path k) e with
      | Some _ => generate_items comments e r
      | None => obind (generate_from_dsdl comments k c e) (fun l => obind (generate_items comments e r) (fun l' => Done (l ++ l')))
      end
  end.
(** lib.rs:55-74 [generate_code] *)
Definition generate_code (comments : key -> role -> text) (package : list (key * compiled)) (e : packages) : out tree :=
  obind (generate_items comments e package) (fun l => Done (tree_of l)).

(** * Zero-copy types *)

Section ZeroCopy.
  Context (zero_copy : cmessage -> bool).
  (** lib.rs:467-483 [scalar_supports_zero_copy] *)
  Definition rscalar_zero_copy (s : rscalar cmessage) : bool :=
    match s with
    | RComposite _ m => zero_copy m
    | RPrimitive PBool => false
    | RPrimitive (PInt bits) | RPrimitive (PUInt bits) => (bits =? 8)%nat || (bits =? 16)%nat || (bits =? 32)%nat || (bits =? 64)%nat
    | RPrimitive _ => true
    | RVoid _ => false
    end.
  (** lib.rs:459-465 [type_supports_zero_copy] *)
  Definition ftype_zero_copy (t : ftype cmessage) : bool := match t with FScalar s | FFixed s _ => rscalar_zero_copy s | FVariable _ _ => false end.
  (** lib.rs:491-503 *)
  Definition fields_zero_copy : list (field cmessage) -> bool :=
    fix go fs := match fs with
                 | [] => true
                 | FPadding _ _ :: _ => false
                 | FData t _ aligned :: r => aligned && ftype_zero_copy t && go r
                 end.
End ZeroCopy.
(** [is_fixed_size] of bit_length_set; where the lengths overflow, it panics in the code and is [false] here (the panic is in [measure] too) *)
Definition is_fixed_size (o : operator) : bool := match fixed_size o with Some _ => true | None => false end.
(** lib.rs:485-508 [message_supports_zero_copy] *)
Fixpoint cmessage_zero_copy (m : cmessage) : bool :=
  match m with
  | CMessage _ _ (CStruct fs) l _ => is_fixed_size l && fields_zero_copy cmessage_zero_copy fs
  | CMessage _ _ (CUnion _ _) _ _ => false
  end.
(** lib.rs:403-430, 453-457 [supports_zero_copy] *)
Definition gtype_zero_copy (g : gtype) : bool :=
  match g_kind g with
  | GStruct fs => is_fixed_size (g_size g) && forallb (fun f => match f with GPadding _ => false | GData _ _ t _ => ftype_zero_copy cmessage_zero_copy t end) fs
  | GEnum _ _ => false
  end.

(** * Panics while the code is written *)

(** The calls to [min_value] and [max_value]: lib.rs:769-770, 889-891, size_bits.rs *)
Definition measure (o : operator) : res (N * N) := bind (bls_min_value o) (fun a => bind (bls_max_value o) (fun b => Ok (a, b))).
(** lib.rs:842-865: offsets in zero-copy types; [usize] is not bounded *)
Fixpoint check_offsets (offset : N) (fs : list gfield) : res unit :=
  match fs with
  | [] => Ok tt
  | GData _ _ t _ :: r => bind (measure (ftype_size t)) (fun x => if fst x =? snd x then check_offsets (offset + fst x) r else Panic)
  | GPadding bits :: r => check_offsets (offset + bits) r
  end.
Definition all_ok {A} (f : A -> res unit) (l : list A) : res unit := fold_right (fun a r => bind (f a) (fun _ => r)) (Ok tt) l.
(** impl_data_type.rs:22-37: [EXTENT_BYTES] *)
Definition extent_bytes (x : extent) : res (option N) :=
  match x with Sealed => Ok None | Delimited bits => if bits / 8 <? 2 ^ 32 then Ok (Some (bits / 8)) else Panic end.
(** impl_constants.rs:14-26 *)
Definition write_constant (c : text * constant) : res unit := match constant_type (snd c) with PByte | PUtf8 => Panic | _ => Ok tt end.
(** lib.rs:765-925 and what it calls *)
Definition write_type (g : gtype) : res unit :=
  bind (measure (g_size g)) (fun _ =>
  bind (match g_kind g with
        | GStruct fs => all_ok (fun f => match f with GData _ _ t _ => bind (measure (ftype_size t)) (fun _ => Ok tt) | GPadding _ => Ok tt end) fs
        | GEnum _ _ => Ok tt
        end) (fun _ =>
  bind (extent_bytes (g_extent g)) (fun _ =>
  bind (all_ok write_constant (g_constants g)) (fun _ =>
  if gtype_zero_copy g then match g_kind g with GStruct fs => check_offsets 0 fs | GEnum _ _ => Panic end else Ok tt)))).
Definition write_item (i : item) : res unit := match i with IType g => write_type g | IConstant _ _ _ _ => Ok tt end.
Fixpoint write_tree (t : tree) : res unit :=
  match t with Tree items children => bind (all_ok write_item items) (fun _ => all_ok (fun c => write_tree (snd c)) children) end.
(** lib.rs:927-952: the top level holds no types *)
Definition write_code (t : tree) : res unit :=
  match t with Tree items children => if match items with [] => true | _ => false end then all_ok (fun c => write_tree (snd c)) children else Panic end.

(** * Types that are generated as enums without data *)

(** impl_serialize.rs:49-86: the variant at index [i] *)
Definition write_enum (bits : N) (vs : list gvariant) (i : nat) : list wop :=
  match nth_error vs i with Some v => [call_write true (N.to_nat bits) (v_discriminant v)] | None => [] end.
(** impl_deserialize.rs:81-122: the first variant whose discriminant is what was read; as in [GenModel], the tag is an [i32] *)
Fixpoint find_variant (n : Z) (vs : list gvariant) : option nat :=
  match vs with [] => None | v :: r => if (Z.of_N (v_discriminant v) =? n)%Z then Some 0%nat else option_map S (find_variant n r) end.
Definition read_enum (bits : N) (vs : list gvariant) : deserializer nat :=
  dbind (lift (call_read_aligned (N.to_nat bits))) (fun n => match find_variant (as_i32 n) vs with Some i => dret i | None => derr UnionTag end).
