(** Specification of the compiler of DSDL files: what a compiled type must be, given the files. *)
From Coq Require Import QArith Qcanon.
From Verif Require Import Base BlsModel GenModel ExprModel ExprSpec PkgModel PkgSpec CompModel.
Open Scope list_scope.
Open Scope N_scope.

(** * Compiled types *)

(** The members of a message: padding, and fields or variants *)
Inductive cmember := MemberPadding (bits : N) | MemberData (t : ftype cmessage) (name : text).
Definition member_of_field (f : field cmessage) : cmember := match f with FPadding bits _ => MemberPadding bits | FData t name _ => MemberData t name end.
Definition members (k : ckind cmessage) : list cmember :=
  match k with CStruct fs => map member_of_field fs | CUnion _ vs => map (fun v => MemberData (fst v) (snd v)) vs end.
Definition is_union (k : ckind cmessage) : Prop := match k with CUnion _ _ => True | CStruct _ => False end.
Definition member_names (ms : list cmember) : list text := flat_map (fun m => match m with MemberPadding _ => [] | MemberData _ name => [name] end) ms.
(** The types that a message refers to *)
Definition refers (k : ckind cmessage) (key' : key) (m : cmessage) : Prop :=
  exists t name, In (MemberData t name) (members k) /\ ftype_scalar t = RComposite key' m.
(** [contains a b]: [b] is [a] or inside of it, at any depth *)
Inductive contains : cmessage -> key -> cmessage -> Prop :=
| co_member m k inner : refers (c_kind m) k inner -> contains m k inner
| co_inside m k inner k' inner' : refers (c_kind m) k inner -> contains inner k' inner' -> contains m k' inner'.
(** The messages of a compiled type *)
Definition messages (c : compiled) : list cmessage := match compiled_kind c with KMessage m => [m] | KService a b => [a; b] end.

(** * Statements *)

Definition is_attribute (st : statement) : Prop := match st with SField _ _ | SPadding _ => True | _ => False end.
Definition is_ending (st : statement) : Prop := match st with SDirective DSealed _ | SDirective DExtent _ => True | _ => False end.
Definition union_directive : statement := SDirective DUnion None.
Definition deprecated_directive : statement := SDirective DDeprecated None.

(** The compiled scalar type that is written [s] in a file in package [path] *)
Inductive scalar_for (results : list (key * compiled)) (path : list text) : tscalar -> rscalar cmessage -> Prop :=
| sf_primitive p : scalar_for results path (Primitive p) (RPrimitive p)
| sf_void bits : scalar_for results path (Void bits) (RVoid bits)
| sf_full k port m : key_path k <> [] -> In (k, Compiled port (KMessage m)) results -> scalar_for results path (Versioned k) (RComposite k m)
| sf_local name a b port m : let k := Key path name a b in
    In (k, Compiled port (KMessage m)) results -> scalar_for results path (Versioned (Key [] name a b)) (RComposite k m).
(** If the expression is one of numbers, it is the number *)
Definition length_is (e : expr) (n : N) : Prop := forall v, denotes e v -> v = VRat (integer (Z.of_N n)).
Inductive type_for (results : list (key * compiled)) (path : list text) : stype -> ftype cmessage -> Prop :=
| tf_scalar s r : scalar_for results path s r -> type_for results path (TypeScalar s) (FScalar r)
| tf_fixed s r e n : scalar_for results path s r -> length_is e n -> n < 2 ^ 64 -> type_for results path (TypeArray s AFixed e) (FFixed r n)
| tf_inclusive s r e n : scalar_for results path s r -> length_is e n -> n < 2 ^ 64 -> type_for results path (TypeArray s AInclusive e) (FVariable r n)
| tf_exclusive s r e n : scalar_for results path s r -> length_is e (n + 1) -> n + 1 < 2 ^ 64 -> type_for results path (TypeArray s AExclusive e) (FVariable r n).
Inductive member_for (results : list (key * compiled)) (path : list text) : statement -> cmember -> Prop :=
| mf_padding bits : member_for results path (SPadding bits) (MemberPadding bits)
| mf_field t r name : type_for results path t r -> member_for results path (SField t name) (MemberData r name).
(** What attributes, constants and endings declare *)
Definition attributes (sts : list statement) : list statement := filter (fun st => match st with SField _ _ | SPadding _ => true | _ => false end) sts.
Definition constant_statements (sts : list statement) : list statement := filter (fun st => match st with SConstant _ _ _ => true | _ => false end) sts.
Definition endings (sts : list statement) : list statement :=
  filter (fun st => match st with SDirective DSealed _ | SDirective DExtent _ => true | _ => false end) sts.
Inductive constant_for (to_float : nat -> Qc -> option N) : statement -> text * constant -> Prop :=
| cfor t name e v c : ~ reserved name -> (forall w, denotes e w -> v = w) -> check_constant to_float t v = Done c ->
    constant_for to_float (SConstant t name e) (name, Constant t v c).
Inductive ending_for : statement -> extent -> Prop :=
| ef_sealed : ending_for (SDirective DSealed None) Sealed
| ef_extent e n : length_is e n -> n < 2 ^ 64 -> n mod 8 = 0 -> ending_for (SDirective DExtent (Some e)) (Delimited n).

(** A section of a file (all of it, or what precedes or follows the marker) and the message it is compiled to *)
Record describes (to_float : nat -> Qc -> option N) (results : list (key * compiled)) (path : list text) (sts : list statement) (deprecated : bool) (m : cmessage) : Prop := Describes {
  ds_members : Forall2 (member_for results path) (attributes sts) (members (c_kind m));
  ds_union : is_union (c_kind m) <-> In union_directive sts;
  ds_constants : Forall2 (constant_for to_float) (constant_statements sts) (c_constants m);
  ds_ending : exists st, endings sts = [st] /\ ending_for st (c_extent m);
  ds_deprecated : c_deprecated m = deprecated
}.
(** The order of statements *)
Record allowed (pre : list statement) (st : statement) : Prop := Allowed {
  al_attribute : is_attribute st -> endings pre = [];
  al_padding : forall bits, st = SPadding bits -> ~ In union_directive pre;
  al_union : forall e, st = SDirective DUnion e -> e = None /\ attributes pre = [] /\ endings pre = [] /\ ~ In union_directive pre;
  al_deprecated : forall e, st = SDirective DDeprecated e -> e = None /\ attributes pre = [] /\ endings pre = [] /\ ~ In deprecated_directive pre;
  al_ending : is_ending st -> endings pre = [] /\ (In union_directive pre -> (2 <= length (attributes pre))%nat);
  al_known : forall e, st <> SDirective DOther e;
  al_constant : forall t name e, st = SConstant t name e -> forall t' e', ~ In (SConstant t' name e') pre
}.
Definition ordered (sts : list statement) : Prop := forall pre st post, sts = pre ++ st :: post -> allowed pre st.

(** A whole file: one section, or two sections with the marker between them.  The directive is for both. *)
Definition marked_deprecated (sts : list statement) (deprecated : bool) : Prop := deprecated = true <-> In deprecated_directive sts.
Inductive file_for (to_float : nat -> Qc -> option N) (results : list (key * compiled)) (path : list text) : list statement -> dsdl_kind -> Prop :=
| ff_message sts deprecated m : ~ In SMarker sts -> marked_deprecated sts deprecated -> describes to_float results path sts deprecated m ->
    file_for to_float results path sts (KMessage m)
| ff_service before after deprecated request response : ~ In SMarker before -> ~ In SMarker after -> marked_deprecated before deprecated ->
    describes to_float results path before deprecated request -> describes to_float results path after deprecated response ->
    file_for to_float results path (before ++ SMarker :: after) (KService request response).
(** Its sections are in order, and what follows the marker has no directive about deprecation *)
Inductive sections_ordered : list statement -> Prop :=
| so_message sts : ~ In SMarker sts -> ordered sts -> sections_ordered sts
| so_service before after : ~ In SMarker before -> ~ In SMarker after -> ordered before -> ordered after -> (forall e, ~ In (SDirective DDeprecated e) after) ->
    sections_ordered (before ++ SMarker :: after).

(** * Lengths *)

(** The same type without names, as [GenModel] has it; void types are like integers *)
Definition erase_scalar (erase : cmessage -> message) (s : rscalar cmessage) : scalar message :=
  match s with RComposite _ m => SComposite (erase m) | RPrimitive p => SPrimitive p | RVoid bits => SPrimitive (PUInt (N.to_nat bits)) end.
Definition erase_type (erase : cmessage -> message) (t : ftype cmessage) : rtype message :=
  match t with FScalar s => TScalar (erase_scalar erase s) | FFixed s n => TFixed (erase_scalar erase s) n | FVariable s n => TVariable (erase_scalar erase s) n end.
Definition erase_field (erase : cmessage -> message) (f : field cmessage) : member message :=
  match f with FPadding bits _ => MPadding (N.to_nat bits) | FData t _ _ => MData (erase_type erase t) end.
Fixpoint erase (m : cmessage) : message :=
  match m with
  | CMessage _ e k _ _ =>
      Message (match e with Sealed => false | Delimited _ => true end)
        (match k with
         | CStruct fs => KStruct (map (erase_field erase) fs)
         | CUnion _ vs => KUnion (map (fun v => erase_type erase (fst v)) vs)
         end)
  end.
Definition flag {M} (f : field M) : bool := match f with FPadding _ a | FData _ _ a => a end.
