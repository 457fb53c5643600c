(** Specification of documentation comments: to what a comment belongs. *)
From Verif Require Import Base GenModel ExprModel ExprSpec PkgModel CompModel CompSpec ParseModel DocModel.
Open Scope list_scope.
Open Scope N_scope.

(** The sections of a file: all of it, or what precedes and what follows the marker *)
Definition marker : item := IStatement SMarker.
Inductive sections : list item -> option (list item) -> list item -> Prop :=
| sec_message is : ~ In marker is -> sections is None is
| sec_service b a : ~ In marker b -> ~ In marker a -> sections (b ++ marker :: a) (Some b) a.

(** A comment belongs to the last constant, field or variant (padding counts too) that precedes it in its section, or else to the type.  [nc] and
    [nm] are the numbers of constants and members so far. *)
Inductive owner := OwnType | OwnConstant (n : nat) | OwnMember (n : nat).
Fixpoint owners (now : owner) (nc nm : nat) (sect : list item) : list (owner * text) :=
  match sect with
  | [] => []
  | IComment t :: r => (now, t) :: owners now nc nm r
  | IStatement (SConstant _ _ _) :: r => owners (OwnConstant nc) (S nc) nm r
  | IStatement (SField _ _) :: r | IStatement (SPadding _) :: r => owners (OwnMember nm) nc (S nm) r
  | IStatement _ :: r => owners now nc nm r
  end.
Definition owner_eqb (a b : owner) : bool :=
  match a, b with
  | OwnType, OwnType => true
  | OwnConstant m, OwnConstant n | OwnMember m, OwnMember n => (m =? n)%nat
  | _, _ => false
  end.
Definition comments_for (sect : list item) (o : owner) : list text := map snd (filter (fun x => owner_eqb (fst x) o) (owners OwnType 0 0 sect)).
(** The text of comments: one line for each, without empty lines at the beginning *)
Fixpoint lines (l : list text) : text := match l with [] => [] | [t] => t | t :: r => t ++ 10 :: lines r end.
Fixpoint without_leading (l : list text) : list text := match l with [] :: r => without_leading r | _ => l end.
Definition text_for (sect : list item) (o : owner) : text := lines (without_leading (comments_for sect o)).

Record documents (sect : list item) (d : docs) : Prop := Documents {
  dc_type : type_doc d = text_for sect OwnType;
  dc_constants : map snd (constant_docs d) = map (fun i => text_for sect (OwnConstant i)) (seq 0 (length (constant_statements (statements sect))));
  dc_members : map snd (member_docs d) = map (fun i => text_for sect (OwnMember i)) (seq 0 (length (attributes (statements sect))))
}.

(** The expressions of a statement are calculations with literals. *)
Definition plain (st : statement) : Prop :=
  match st with
  | SDirective _ (Some e) | SConstant _ _ e | SField (TypeArray _ _ e) _ => exists v, denotes e v
  | _ => True
  end.
(** What is required of the comments: each precedes the directive about sealing or extent; in a union, a constant or variant precedes it, and no
    expression uses the offset. *)
Definition in_place (pre : list statement) : Prop :=
  endings pre = [] /\ (In union_directive pre -> Forall plain pre /\ (constant_statements pre <> [] \/ attributes pre <> [])).
Definition placed (sect : list item) : Prop := forall pre t post, sect = pre ++ IComment t :: post -> in_place (statements pre).
(** The comments of a file: of its message, or of its response and its request *)
Definition described (items : list item) (d : doc_state) : Prop :=
  exists before sect, sections items before sect /\ (placed sect -> documents sect (doc_now d)) /\
  match before, doc_request d with None, None => True | Some b, Some r => placed b -> documents b r | _, _ => False end.
