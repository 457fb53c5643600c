(** Specification of the warnings of the DSDL compiler. *)
From Verif Require Import Base GenModel ExprModel PkgModel PkgSpec CompModel CompSpec CodeModel CodeSpec WarnModel.
Open Scope list_scope.
Open Scope N_scope.

(** What a warning can be about *)
Inductive subject := Package (part : text) | TypeName (k : key) | Member (k : key) (name : text) | ConstantName (k : key) (name : text).
Definition about (w : warning) : subject :=
  match w with PackageCase p _ => Package p | TypeNameCase k _ => TypeName k | FieldCase k n _ => Member k n | ConstantCase k n _ => ConstantName k n end.
Definition suggestion (w : warning) : text := match w with PackageCase _ s | TypeNameCase _ s | FieldCase _ _ s | ConstantCase _ _ s => s end.
Definition name_in (x : subject) : text := match x with Package p => p | TypeName k => key_name k | Member _ n | ConstantName _ n => n end.

(** The names in a compiled package *)
Inductive occurs (results : list (key * compiled)) : subject -> Prop :=
| oc_package k c p : In (k, c) results -> In p (key_path k) -> occurs results (Package p)
| oc_type k c : In (k, c) results -> occurs results (TypeName k)
| oc_member k c m t name : In (k, c) results -> In m (messages c) -> In (MemberData t name) (members (c_kind m)) -> occurs results (Member k name)
| oc_constant k c m name v : In (k, c) results -> In m (messages c) -> In (name, v) (c_constants m) -> occurs results (ConstantName k name).

(** The conventions: "snake_case" without uppercase letters; "CamelCase" without underscores, except for the first and the last character;
    "SHOUTING_SNAKE_CASE" without lowercase letters, with single underscores between words *)
Definition snake_style (s : text) : Prop := Forall (fun c => 97 <= c <= 122 \/ is_digit c \/ c = 95) s.
Definition camel_style (s : text) : Prop :=
  exists a m b, s = a ++ m ++ b /\ (a = [] \/ a = [95]) /\ (b = [] \/ b = [95]) /\ Forall (fun c => is_letter c \/ is_digit c) m.
Definition shouting_style (s : text) : Prop :=
  Forall (fun c => 65 <= c <= 90 \/ is_digit c \/ c = 95) s /\
  (forall r, s <> 95 :: r) /\ (forall r, s <> r ++ [95]) /\ (forall a b, s <> a ++ [95; 95] ++ b).
Definition in_style (x : subject) (s : text) : Prop :=
  match x with Package _ | Member _ _ => snake_style s | TypeName _ => camel_style s | ConstantName _ _ => shouting_style s end.

(** The letters and digits of a name, whatever their case *)
Definition spelling (s : text) : text := lowercase (filter alphanumeric s).
