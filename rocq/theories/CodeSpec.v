(** Specification of the generator of Rust code. *)
From Coq Require Import String.
From Verif Require Import Base EncModel EncSpec BlsModel BlsSpec GenModel ExprModel PkgModel PkgSpec CompModel CompSpec CodeModel.
Open Scope list_scope.
Open Scope N_scope.

(** * External packages *)

(** A map has one value for a key. *)
Definition is_map (e : packages) : Prop := NoDup (map fst e).
(** [p] is the package [before] or inside of it *)
Definition inside (p before after : list text) : Prop := p = before ++ after /\ before <> [].
(** The Rust module for the package [p]: that of the innermost package around it that is registered, and then the rest of the path *)
Inductive external_for (e : packages) (p : list text) : list text -> Prop :=
| xf before after rust : inside p before after -> In (before, rust) e ->
    (forall before' after' rust', inside p before' after' -> In (before', rust') e -> (length before' <= length before)%nat) ->
    external_for e p (rust ++ after).
Definition not_external (e : packages) (p : list text) : Prop := forall before after rust, inside p before after -> ~ In (before, rust) e.

(** * Names *)

(** Decimal notation without leading zeros *)
Definition decimal (s : text) (n : N) : Prop := denotes_number s n /\ (s = [48] \/ exists c r, s = c :: r /\ c <> 48).
(** "_" is no identifier of Rust and becomes "_0". *)
Inductive rust_part : text -> text -> Prop :=
| rp_same w : w <> [95] -> rust_part w w
| rp_underscore : rust_part [95] [95; 48].
(** The module for a version of a type: the name in snake case and the version, like "node_status_1_0" *)
Definition version_part (k : key) (s : text) : Prop :=
  exists major minor, s = snake (key_name k) ++ [95] ++ major ++ [95] ++ minor /\ decimal major (key_major k) /\ decimal minor (key_minor k).
(** The path of the module that holds the type, when it is generated *)
Definition module_for (k : key) (p : list text) : Prop :=
  exists parts v, p = parts ++ [v] /\ Forall2 rust_part (key_path k) parts /\ version_part k v.
(** The name of the type *)
Definition suffix (r : role) : text := match r with RoleMessage => [] | RoleRequest => name_of "Request" | RoleResponse => name_of "Response" end.
Definition named_for (k : key) (r : role) (s : text) : Prop := exists w, rust_part (key_name k) w /\ s = w ++ suffix r.

(** The keywords of Rust (strict, and reserved) *)
Definition rust_keywords : list text :=
  map name_of ["as"; "break"; "const"; "continue"; "crate"; "else"; "enum"; "extern"; "false"; "fn"; "for"; "if"; "impl"; "in"; "let"; "loop"; "match"; "mod"; "move"; "mut"; "pub";
               "ref"; "return"; "self"; "Self"; "static"; "struct"; "super"; "trait"; "true"; "type"; "unsafe"; "use"; "where"; "while"; "async"; "await"; "dyn";
               "abstract"; "become"; "box"; "do"; "final"; "macro"; "override"; "priv"; "typeof"; "unsized"; "virtual"; "yield"; "try"]%string.
Definition rust_identifier (s : text) : Prop := identifier s /\ s <> [95] /\ ~ In s rust_keywords.

(** The first character that is not an underscore is a letter. *)
Definition first_letter (s : text) : Prop := exists us c r, s = us ++ c :: r /\ Forall (eq 95) us /\ is_letter c.

(** Keys as they are in a package; versions are pairs of [u8] *)
Record proper (k : key) : Prop := Proper {
  pr_names : Forall identifier (key_path k ++ [key_name k]);
  pr_major : key_major k < 256;
  pr_minor : key_minor k < 256
}.

(** Names that follow the conventions: words with one underscore between them, each a letter and then letters and digits, all in lowercase or all in
    uppercase *)
Definition lowercase_word (w : text) : Prop := exists c r, w = c :: r /\ 97 <= c <= 122 /\ Forall (fun c => 97 <= c <= 122 \/ 48 <= c <= 57) r.
Definition uppercase_word (w : text) : Prop := exists c r, w = c :: r /\ 65 <= c <= 90 /\ Forall (fun c => 65 <= c <= 90 \/ 48 <= c <= 57) r.
Inductive words_with (P : text -> Prop) : text -> Prop :=
| ww_one w : P w -> words_with P w
| ww_more w r : P w -> words_with P r -> words_with P (w ++ 95 :: r).
Definition conventional (s : text) : Prop := words_with lowercase_word s \/ words_with uppercase_word s.

(** The names of one kind follow the same convention. *)
Definition uniform (names : list text) : Prop := Forall (words_with lowercase_word) names \/ Forall (words_with uppercase_word) names.

(** * Items *)

Definition types (l : list item) : list gtype := flat_map (fun i => match i with IType g => [g] | _ => [] end) l.
(** The constants: where they are, their names, and what kind of port they are for, with the number *)
Definition constants (l : list item) : list (rust_name * port_kind * N) := flat_map (fun i => match i with IConstant n k v _ => [(n, k, v)] | _ => [] end) l.
Definition full_name (n : rust_name) : list text * text := (module_path n, type_name n).
(** What is declared in a type: the names of fields and variants *)
Definition inner_names (g : gtype) : list text :=
  match g_kind g with GStruct fs => flat_map (fun f => match f with GData n _ _ _ => [n] | GPadding _ => [] end) fs | GEnum _ vs => map v_name vs end.
(** The types that a generated type is made of *)
Inductive mentions : rust_type -> rust_name -> Prop :=
| me_named n : mentions (RustNamed n) n
| me_array t len n : mentions t n -> mentions (RustArray t len) n
| me_vec t len n : mentions t n -> mentions (RustVec t len) n.
Inductive part_of (g : gtype) : rust_type -> Prop :=
| po_field fs name rust t aligned : g_kind g = GStruct fs -> In (GData name rust t aligned) fs -> part_of g rust
| po_variant bits vs v rust t : g_kind g = GEnum bits vs -> In v vs -> v_type v = Some (rust, t) -> part_of g rust.
Definition refers_to (g : gtype) (n : rust_name) : Prop := exists rust, part_of g rust /\ mentions rust n.

(** The Rust name of a message type, where another type refers to it *)
Inductive referenced_as (e : packages) (k : key) : rust_name -> Prop :=
| ra_internal p s : not_external e (key_path k) -> module_for k p -> named_for k RoleMessage s -> referenced_as e k (RustName true p s)
| ra_external m v s : external_for e (key_path k) m -> version_part k v -> named_for k RoleMessage s -> referenced_as e k (RustName false (m ++ [v]) s).
(** The types of Rust for the types of DSDL: integers are stored in the next larger ones, booleans in arrays as bits *)
Definition stored_width (bits w : nat) : Prop := In w [8; 16; 32; 64]%nat /\ (bits <= w)%nat /\ forall w', In w' [8; 16; 32; 64]%nat -> (bits <= w')%nat -> (w <= w')%nat.
Inductive scalar_in_rust (e : packages) : rscalar cmessage -> rust_type -> Prop :=
| sr_composite k m n : referenced_as e k n -> scalar_in_rust e (RComposite k m) (RustNamed n)
| sr_bool : scalar_in_rust e (RPrimitive PBool) RustBool
| sr_byte : scalar_in_rust e (RPrimitive PByte) (RustUnsigned 8)
| sr_utf8 : scalar_in_rust e (RPrimitive PUtf8) (RustUnsigned 8)
| sr_int bits w : stored_width bits w -> scalar_in_rust e (RPrimitive (PInt bits)) (RustSigned w)
| sr_uint bits w : stored_width bits w -> scalar_in_rust e (RPrimitive (PUInt bits)) (RustUnsigned w)
| sr_f16 : scalar_in_rust e (RPrimitive PFloat16) RustF16
| sr_f32 : scalar_in_rust e (RPrimitive PFloat32) RustF32
| sr_f64 : scalar_in_rust e (RPrimitive PFloat64) RustF64
| sr_void bits : scalar_in_rust e (RVoid bits) RustUnit.
Inductive type_in_rust (e : packages) : ftype cmessage -> rust_type -> Prop :=
| ti_scalar s r : scalar_in_rust e s r -> type_in_rust e (FScalar s) r
| ti_bits len bytes : 8 * (bytes - 1) < len <= 8 * bytes \/ (len = 0 /\ bytes = 0) -> type_in_rust e (FFixed (RPrimitive PBool) len) (RustBitArray bytes)
| ti_array s r len : s <> RPrimitive PBool -> scalar_in_rust e s r -> type_in_rust e (FFixed s len) (RustArray r len)
| ti_variable_bits len bytes : 8 * (bytes - 1) < len <= 8 * bytes \/ (len = 0 /\ bytes = 0) -> type_in_rust e (FVariable (RPrimitive PBool) len) (RustBitArray bytes)
| ti_vec s r len : s <> RPrimitive PBool -> scalar_in_rust e s r -> type_in_rust e (FVariable s len) (RustVec r len).
(** Fields and variants for the members of a type *)
Inductive field_for (e : packages) : cmember -> gfield -> Prop :=
| fo_padding bits : field_for e (MemberPadding bits) (GPadding bits)
| fo_data t name w r aligned : rust_part name w -> type_in_rust e t r -> field_for e (MemberData t name) (GData w r t aligned).
Inductive union_variants (e : packages) : N -> list cmember -> list gvariant -> Prop :=
| uv_nil i : union_variants e i [] []
| uv_cons i t name w r ms vs : rust_part name w -> type_in_rust e t r -> union_variants e (i + 1) ms vs ->
    union_variants e i (MemberData t name :: ms) (GVariant i (camel w) (Some (r, t)) :: vs).
(** Integers have at most 64 bits. *)
Definition narrow (m : cmessage) : Prop := forall t name p, In (MemberData t name) (members (c_kind m)) -> ftype_scalar t = RPrimitive p -> (prim_bits p <= 64)%nat.
Definition shaped_as (e : packages) (m : cmessage) (g : gtype) : Prop :=
  match g_kind g with
  | GStruct fs => ~ is_union (c_kind m) /\ Forall2 (field_for e) (members (c_kind m)) fs
  | GEnum bits vs => is_union (c_kind m) /\ union_variants e 0 (members (c_kind m)) vs /\ (forall b l, c_kind m = CUnion b l -> bits = b)
  end.

(** What a file declares is generated: a type for a message, two for a service *)
Definition declared_in (c : compiled) (r : role) (m : cmessage) : Prop :=
  match compiled_kind c, r with
  | KMessage m', RoleMessage => m = m'
  | KService request _, RoleRequest => m = request
  | KService _ response, RoleResponse => m = response
  | _, _ => False
  end.

(** The name and kind of the constant for the port ID of a type *)
Definition port_for (c : compiled) (name : text) (kind : port_kind) : Prop :=
  match compiled_kind c with KMessage _ => name = name_of "SUBJECT" /\ kind = PortSubject | KService _ _ => name = name_of "SERVICE" /\ kind = PortService end.

(** * Modules *)

(** The items of the module with a path *)
Definition in_child (f : tree -> list item) (name : text) : list (text * tree) -> list item :=
  fix go l := match l with [] => [] | (n, t) :: r => if text_eqb n name then f t else go r end.
Fixpoint items_at (p : list text) (t : tree) {struct p} : list item :=
  match t with Tree items children => match p with [] => items | name :: r => in_child (items_at r) name children end end.
(** No two modules in a module have the same name. *)
Inductive well_named : tree -> Prop :=
| wn items children : NoDup (map fst children) -> Forall (fun c => well_named (snd c)) children -> well_named (Tree items children).

(** * Types that are generated as enums *)

(** A line of the comment begins with "[canadensis(enum)]". *)
Definition marked_enum (comments : text) : Prop :=
  exists before after, comments = before ++ name_of "[canadensis(enum)]" ++ after /\ (before = [] \/ exists b, before = b ++ [10]).
(** struct_as_enum.rs:5-10: the documented requirements *)
Record enum_ready (m : cmessage) (bits : nat) : Prop := EnumReady {
  er_struct : ~ is_union (c_kind m);
  er_field : exists name, members (c_kind m) = [MemberData (FScalar (RPrimitive (PUInt bits))) name];
  er_types : Forall (fun c => constant_type (snd c) = PUInt bits) (c_constants m);
  er_values : NoDup (map (fun c => constant_val (snd c)) (c_constants m))
}.
(** The constants and the variants correspond. *)
Definition variant_for (c : text * constant) (v : gvariant) : Prop :=
  constant_val (snd c) = CInt (Z.of_N (v_discriminant v)) /\ v_type v = None /\ exists w, rust_part (fst c) w /\ v_name v = camel w.
(** The constants are below [bound]. *)
Definition constants_below (bound : Z) (m : cmessage) : Prop := forall name c z, In (name, c) (c_constants m) -> constant_val c = CInt z -> (z < bound)%Z.

(** * Zero-copy types *)

(** The traits of zerocopy can be derived for a struct if all of its fields are plain numbers, or types for which they are derived. *)
Inductive plain_type (derived : rust_name -> Prop) : rust_type -> Prop :=
| pt_unsigned n : plain_type derived (RustUnsigned n)
| pt_signed n : plain_type derived (RustSigned n)
| pt_f16 : plain_type derived RustF16
| pt_f32 : plain_type derived RustF32
| pt_f64 : plain_type derived RustF64
| pt_named n : derived n -> plain_type derived (RustNamed n)
| pt_array t len : plain_type derived t -> plain_type derived (RustArray t len).

(** * Panics *)

(** Lengths can be calculated with 64 bits, the extent fits into 32 bits, and so do the numbers of variants. *)
Record small_enough (m : cmessage) : Prop := SmallEnough {
  se_length : bls_ok (c_length m);
  se_members : forall t name, In (MemberData t name) (members (c_kind m)) -> bls_ok (ftype_size t);
  se_extent : forall bits, c_extent m = Delimited bits -> bits / 8 < 2 ^ 32;
  se_variants : is_union (c_kind m) -> N.of_nat (length (members (c_kind m))) <= 2 ^ 32
}.
