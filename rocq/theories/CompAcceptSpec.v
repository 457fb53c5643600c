(** Specification of the packages of DSDL files that must be accepted: those whose expressions are arithmetic. *)
From Coq Require Import QArith Qcanon Permutation.
From Verif Require Import Base BlsModel BlsSpec GenModel ExprModel ExprSpec PkgModel PkgSpec CompModel CompSpec.
Open Scope list_scope.
Open Scope N_scope.

Definition number (e : expr) (n : N) : Prop := denotes e (VRat (integer (Z.of_N n))).
(** As in [CompSpec], but every expression has a value *)
Inductive type_written (results : list (key * compiled)) (path : list text) : stype -> ftype cmessage -> Prop :=
| tw_scalar s r : scalar_for results path s r -> type_written results path (TypeScalar s) (FScalar r)
| tw_fixed s r e n : scalar_for results path s r -> number e n -> n < 2 ^ 64 -> type_written results path (TypeArray s AFixed e) (FFixed r n)
| tw_inclusive s r e n : scalar_for results path s r -> number e n -> n < 2 ^ 64 -> type_written results path (TypeArray s AInclusive e) (FVariable r n)
| tw_exclusive s r e n : scalar_for results path s r -> number e (n + 1) -> n + 1 < 2 ^ 64 -> type_written results path (TypeArray s AExclusive e) (FVariable r n).
Inductive member_written (results : list (key * compiled)) (path : list text) : statement -> cmember -> Prop :=
| mw_padding bits : member_written results path (SPadding bits) (MemberPadding bits)
| mw_field t r name : type_written results path t r -> member_written results path (SField t name) (MemberData r name).
Inductive constant_written (to_float : nat -> Qc -> option N) : statement -> text * constant -> Prop :=
| cw t name e v c : ~ reserved name -> denotes e v -> check_constant to_float t v = Done c -> constant_written to_float (SConstant t name e) (name, Constant t v c).
Inductive ending_written : statement -> extent -> Prop :=
| ew_sealed : ending_written (SDirective DSealed None) Sealed
| ew_extent e n : number e n -> n < 2 ^ 64 -> n mod 8 = 0 -> ending_written (SDirective DExtent (Some e)) (Delimited n).

(** The length before padding to bytes *)
Definition unpadded (m : cmessage) : operator := match erase m with Message _ k => kind_length bit_length k end.
(** Lengths and flags as the layout has them; all lengths fit into 64 bits *)
Definition laid_out (pad : bool) (m : cmessage) : Prop :=
  c_length m = (if pad then bls_pad (unpadded m) 8 else unpadded m) /\
  match c_kind m with
  | CStruct fs => bls_ok (struct_length bit_length None (map (erase_field erase) fs)) /\ map flag fs = map fst (with_flags None (map (erase_field erase) fs))
  | CUnion bits vs => bits = discriminant_bits (length vs)
  end.
(** A section that must be accepted, and the message it must be compiled to *)
Record declares (to_float : nat -> Qc -> option N) (results : list (key * compiled)) (path : list text) (sts : list statement) (deprecated pad : bool) (m : cmessage) : Prop := Declares {
  dc_members : Forall2 (member_written results path) (attributes sts) (members (c_kind m));
  dc_union : is_union (c_kind m) <-> In union_directive sts;
  dc_constants : Forall2 (constant_written to_float) (constant_statements sts) (c_constants m);
  dc_ending : exists st, endings sts = [st] /\ ending_written st (c_extent m);
  dc_deprecated : c_deprecated m = deprecated;
  dc_asserts : forall e, In (SDirective DAssert e) sts -> exists x, e = Some x /\ denotes x (VBool true);
  dc_prints : forall e, In (SDirective DPrint (Some e)) sts -> exists v, denotes e v;
  dc_names : NoDup (member_names (members (c_kind m)));
  dc_hidden : forall k inner, refers (c_kind m) k inner -> c_deprecated inner = true -> deprecated = true;
  dc_ordered : ordered sts;
  dc_layout : laid_out pad m
}.
(** A file that must be accepted *)
Inductive file_declares (to_float : nat -> Qc -> option N) (results : list (key * compiled)) (path : list text) : list statement -> dsdl_kind -> Prop :=
| fd_message sts deprecated m : ~ In SMarker sts -> marked_deprecated sts deprecated -> declares to_float results path sts deprecated true m ->
    file_declares to_float results path sts (KMessage m)
| fd_service before after deprecated request response : ~ In SMarker before -> ~ In SMarker after -> marked_deprecated before deprecated ->
    (forall e, ~ In (SDirective DDeprecated e) after) ->
    declares to_float results path before deprecated false request -> declares to_float results path after deprecated true response ->
    file_declares to_float results path (before ++ SMarker :: after) (KService request response).
(** The types for the files of a package, each after those that it refers to *)
Definition right_types (to_float : nat -> Qc -> option N) (files : list (key * file)) (rs : list (key * compiled)) : Prop :=
  Permutation (map fst files) (map fst rs) /\
  forall pre k c post, rs = pre ++ (k, c) :: post -> exists sts, In (k, File (Some sts) (port_id c)) files /\ file_declares to_float pre (key_path k) sts (compiled_kind c).
