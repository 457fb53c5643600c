(** Property C127: warnings about names. *)
From Coq Require Import String QArith Qcanon Lia.
From Verif Require Import Base EncModel BlsModel GenModel ExprModel ExprProofs PkgModel PkgSpec PkgProofs CompModel CompSpec CompProps CodeModel CodeSpec WarnModel WarnSpec WarnProofs.
Open Scope list_scope.
Open Scope N_scope.

(** Warnings do not change the result, there is one for each name that occurs and is not in the style for it, and no other. *)
Theorem C127_warnings : forall nfc powf sort_sets to_float files rs ws, compile_with_warnings nfc powf sort_sets to_float files = Done (rs, ws) ->
  compile nfc powf sort_sets to_float files = Done rs /\ NoDup (map about ws) /\ forall x, In x (map about ws) <-> occurs rs x /\ ~ in_style x (name_in x).
Proof.
  intros nfc powf ss tf files rs ws H. unfold compile_with_warnings in H. destruct (compile nfc powf ss tf files) as [rs'| |]; try discriminate H. injection H as -> <-. split; [reflexivity|]. split; [apply warnings_nodup|]. intro x. rewrite in_map_iff. split.
  - intros (w & <- & I). apply in_warnings in I as (x & -> & O & S). rewrite about_warn. auto.
  - intros (O & S). exists (warn x). split; [apply about_warn|]. apply in_warnings. exists x. auto.
Qed.
Print Assumptions C127_warnings.
Theorem C127_harmless : forall nfc powf sort_sets to_float files rs, compile nfc powf sort_sets to_float files = Done rs ->
  exists ws, compile_with_warnings nfc powf sort_sets to_float files = Done (rs, ws).
Proof. intros nfc powf ss tf files rs H. exists (warnings rs). unfold compile_with_warnings. rewrite H. reflexivity. Qed.
Print Assumptions C127_harmless.
(** The name that a warning suggests is in the style, so that it would not cause the warning again, and it is spelled like the name but for case and
    underscores.  Missing: that the name can be used. *)
Theorem C127_suggestions_partial : forall nfc powf sort_sets to_float files rs ws w, compile_with_warnings nfc powf sort_sets to_float files = Done (rs, ws) -> In w ws ->
  in_style (about w) (suggestion w) /\ spelling (suggestion w) = spelling (name_in (about w)).
Proof.
  intros nfc powf ss tf files rs ws w H I. unfold compile_with_warnings in H. destruct (compile nfc powf ss tf files) as [rs'| |]; try discriminate H. injection H as -> <-. apply in_warnings in I as (x & -> & _). rewrite about_warn. apply warn_proper.
Qed.
Print Assumptions C127_suggestions_partial.

Definition ex_warnings := compile_with_warnings (fun t => t) (fun _ _ => None) (fun l => l) (fun _ _ => None).
Definition key_of (package name : string) : key := Key [name_of package] (name_of name) 1 0.
Definition odd_files : list (key * file) :=
  [(key_of "NameSpace" "HTTP_Request", File (Some [SConstant (PUInt 8) (name_of "maxValue") (num 5); SConstant (PUInt 8) (name_of "MAX_VALUE") (num 6); SField (uint 8) (name_of "FirstField"); SPadding 3; SField (uint 8) (name_of "second_field"); sealed_directive]) None);
   (key_of "NameSpace" "Fine", File (Some [sealed_directive]) None)].
Definition reported (o : out (list (key * compiled) * list warning)) : out (list (subject * text)) := obind o (fun r => Done (map (fun w => (about w, suggestion w)) (snd r))).
Example C127_witness : reported (ex_warnings odd_files) =
  Done [(Package (name_of "NameSpace"), name_of "name_space"); (TypeName (key_of "NameSpace" "HTTP_Request"), name_of "HttpRequest");
        (Member (key_of "NameSpace" "HTTP_Request") (name_of "FirstField"), name_of "first_field"); (ConstantName (key_of "NameSpace" "HTTP_Request") (name_of "maxValue"), name_of "MAX_VALUE")].
Proof. vm_compute. reflexivity. Qed.

(** A suggestion can be empty, begin with a digit, be reserved, or be the name of something else in the same type. *)
Theorem C127_suggestions_refuted : exists rs ws,
  ex_warnings (one_file [SConstant (PUInt 8) (name_of "_") (num 1); SConstant (PUInt 8) (name_of "_1") (num 2); SConstant (PUInt 8) (name_of "_bool") (num 3); SConstant (PUInt 8) (name_of "max") (num 4); SConstant (PUInt 8) (name_of "MAX") (num 5); sealed_directive]) = Done (rs, ws) /\
  map suggestion ws = [ []; name_of "1"; name_of "BOOL"; name_of "MAX"] /\ ~ identifier [] /\ ~ identifier (name_of "1") /\ reserved (name_of "BOOL") /\ occurs rs (ConstantName (key_in "T") (name_of "MAX")).
Proof.
  eexists. eexists. split; [vm_compute; reflexivity|]. split; [vm_compute; reflexivity|]. split; [intros (c & r & E & _); discriminate E|]. split; [|split].
  - intros (c & r & E & [L|L] & _); injection E as <- _; [|discriminate L]. unfold is_letter in L. destruct L as [ [A B]|[A B] ]; vm_compute in A; apply A; reflexivity.
  - apply rl_word. vm_compute. tauto.
  - eapply oc_constant; [left; reflexivity|left; reflexivity|]. do 4 right. left. reflexivity.
Qed.
Print Assumptions C127_suggestions_refuted.
(** Not every name outside of "CamelCase" is reported: a type can be in lowercase. *)
Theorem C127_lowercase_refuted : exists rs, ex_warnings [(key_of "ns" "lower", File (Some [sealed_directive]) None)] = Done (rs, []).
Proof. eexists. vm_compute. reflexivity. Qed.
Print Assumptions C127_lowercase_refuted.
