(** Property C128: documentation comments. *)
From Coq Require Import String QArith Qcanon Lia.
From Verif Require Import Base EncModel BlsModel GenModel ExprModel ExprSpec ExprProofs PkgModel PkgSpec PkgProofs CompModel CompSpec CompProofs CompProps ParseModel ParseSpec ParseProps ParseCompProps DocModel DocSpec DocProofs DocFileProofs.
From Verif Require CodeModel CodeSpec CodeEnumProofs.
Open Scope list_scope.
Open Scope N_scope.

(** Comments change neither whether a file compiles nor what it is compiled to. *)
Theorem C128_same : forall nfc powf sort_sets to_float n k items port p c q,
  compile_one nfc powf sort_sets to_float (fun _ => Crash) n k (File (Some (statements items)) port) p = Done (c, q) <-> exists d, compile_one_items nfc powf sort_sets to_float n k items port p = Done (c, d, q).
Proof. exact one_items. Qed.
Print Assumptions C128_same.

(** Each comment that is in place becomes a line of the documentation of what it belongs to, and nothing else is documented, whatever the types are that
    have been compiled before.  Missing: comments that are not [placed], some of which are dropped. *)
Theorem C128_comments_partial : forall nfc powf sort_sets to_float n k items port p c d q, compile_one_items nfc powf sort_sets to_float n k items port p = Done (c, d, q) -> described items d.
Proof. intros nfc powf ss tf n k items port p c d q H. apply one_documented in H. exact H. Qed.
Print Assumptions C128_comments_partial.
(** ... for every type of a package *)
Theorem C128_package_partial : forall nfc powf sort_sets to_float files rs k c, compile_text nfc powf sort_sets to_float files = Done rs -> In (k, c) rs ->
  exists k0 t port items d, In (k0, (Some t, port)) files /\ same_key k0 k /\ file_text false items t /\
  (exists n p q, compile_one_items nfc powf sort_sets to_float n k items port p = Done (c, d, q)) /\ described items d.
Proof.
  intros nfc powf ss tf files rs k c H I. destruct (compile_came nfc powf ss tf _ rs k c H I) as (n & k0 & f & p & q & J & S & R). apply in_map_iff in J. destruct J as ( (k1 & content & port) & X & J). cbn [fst snd to_file] in X. injection X as <- <-.
  assert (C : exists sts, parsed content = Some sts /\ compile_one nfc powf ss tf (fun _ => Crash) n k (File (Some sts) port) p = Done (c, q)).
  { unfold to_file in R. cbn [fst snd] in R. destruct (parsed content) as [sts|]; [exists sts; auto|]. destruct n as [|n]; discriminate R. }
  destruct C as (sts & C & R'). clear R. apply parsed_some in C. destruct C as (t & items & -> & E & ->). apply one_items in R'. destruct R' as (d & R).
 exists k1, t, port, items, d. split; [exact J|]. split; [exact S|]. split; [apply C105_accepted, E|]. split; [exists n, p, q; exact R|]. apply (C128_comments_partial _ _ _ _ _ _ _ _ _ _ _ _ R).
Qed.
Print Assumptions C128_package_partial.

(** * Enums *)

Definition asks_for_enum (t : text) : Prop := exists r, t = name_of "[canadensis(enum)]" ++ r.
Lemma starts_spec p : forall s, CodeModel.starts_with p s = true <-> exists r, s = p ++ r.
Proof.
  induction p as [|x p IH]; intros s; [split; [intros _; exists s; reflexivity|reflexivity]|]. destruct s as [|y s]; cbn [CodeModel.starts_with]; [split; [discriminate|intros (r & E); discriminate E]|]. rewrite andb_true_iff, N.eqb_eq, IH. split; [intros (-> & r & ->); exists r; reflexivity|intros (r & E); injection E as -> ->; split; [reflexivity|exists r; reflexivity] ].
Qed.
Lemma starts_line p : ~ In 10 p -> forall s r, CodeModel.starts_with p (s ++ 10 :: r) = CodeModel.starts_with p s.
Proof.
  intro N. induction p as [|x p IH]; intros s r; [reflexivity|]. destruct s as [|y s]; cbn [app CodeModel.starts_with].
  - destruct (N.eqb_spec x 10) as [->|_]; [exfalso; apply N; left; reflexivity|reflexivity].
  - rewrite IH; [reflexivity|]. intro I. apply N. right. exact I.
Qed.
Lemma within_line s r : ~ In 10 s -> CodeModel.has_at_line false (s ++ 10 :: r) = CodeModel.has_at_line true r.
Proof.
  induction s as [|c s IH]; intro N; [reflexivity|]. cbn [app CodeModel.has_at_line andb orb]. destruct (N.eqb_spec c 10) as [->|_]; [exfalso; apply N; left; reflexivity|]. apply IH. intro I. apply N. right. exact I.
Qed.
Lemma within_last s : ~ In 10 s -> CodeModel.has_at_line false s = false.
Proof.
  induction s as [|c s IH]; intro N; [reflexivity|]. cbn [CodeModel.has_at_line andb orb]. destruct (N.eqb_spec c 10) as [->|_]; [exfalso; apply N; left; reflexivity|]. apply IH. intro I. apply N. right. exact I.
Qed.
Lemma directive_line : ~ In 10 CodeModel.enum_directive.
Proof. intro I. vm_compute in I. repeat (destruct I as [I|I]; [discriminate I|]). destruct I. Qed.
Lemma line_first s r : ~ In 10 s -> CodeModel.has_at_line true (s ++ 10 :: r) = CodeModel.starts_with CodeModel.enum_directive s || CodeModel.has_at_line true r.
Proof.
  intro N. rewrite <- (starts_line _ directive_line s r). destruct s as [|c s]; [reflexivity|]. cbn [app]. cbn [CodeModel.has_at_line andb]. f_equal. destruct (N.eqb_spec c 10) as [->|_]; [exfalso; apply N; left; reflexivity|]. apply within_line. intro I. apply N. right. exact I.
Qed.
Lemma line_last s : ~ In 10 s -> CodeModel.has_at_line true s = CodeModel.starts_with CodeModel.enum_directive s.
Proof.
  intro N. destruct s as [|c s]; [reflexivity|]. cbn [CodeModel.has_at_line andb]. destruct (N.eqb_spec c 10) as [->|_]; [exfalso; apply N; left; reflexivity|]. rewrite within_last; [apply orb_false_r|]. intro I. apply N. right. exact I.
Qed.
Lemma lines_marked l : Forall (fun t => ~ In 10 t) l -> CodeSpec.marked_enum (lines l) <-> Exists asks_for_enum l.
Proof.
  intro F. rewrite <- CodeEnumProofs.marked_right. unfold CodeModel.has_enum_directive. induction F as [|t l N F IH]; [split; [discriminate|intro E; inversion E]|].
  rewrite Exists_cons. destruct l as [|t' l].
  - cbn [lines]. rewrite (line_last _ N), starts_spec. split; [intro H; left; exact H|intros [H|H]; [exact H|inversion H] ].
  - change (lines (t :: t' :: l)) with (t ++ 10 :: lines (t' :: l)). rewrite (line_first _ _ N), orb_true_iff, starts_spec, IH. reflexivity.
Qed.
Lemma leading_exists l : Exists asks_for_enum (without_leading l) <-> Exists asks_for_enum l.
Proof.
  induction l as [|t l IH]; [reflexivity|]. destruct t as [|c t]; [|reflexivity]. cbn [without_leading]. rewrite IH, Exists_cons. split; [intro H; right; exact H|intros [ (r & E)|H]; [discriminate E|exact H] ].
Qed.
Lemma leading_forall {P : text -> Prop} l : Forall P l -> Forall P (without_leading l).
Proof. induction 1 as [|t l N F IH]; [constructor|]. destruct t; [exact IH|]. constructor; assumption. Qed.
Lemma file_comments items t : file_text false items t -> forall x, In (IComment x) items -> ~ In 10 x.
Proof.
  assert (L : forall i s, line_text false i s -> forall x, In (IComment x) i -> ~ In 10 x).
  { intros i s [i1 t1 w i2 t2 S _ C] x I. apply in_app_or in I as [I|I]; [inversion S; subst; [destruct I|destruct I as [I|[] ]; discriminate I]|]. inversion C as [|u A B]; subst; [destruct I|]. destruct I as [I|[] ]. injection I as <-. exact B. }
  induction 1 as [i s H|i1 t1 eol i2 t2 H _ F IH]; [apply (L _ _ H)|]. intros x I. apply in_app_or in I as [I|I]; [apply (L _ _ H x I)|apply IH, I].
Qed.
Lemma owners_in sect : forall now nc nm o t, In (o, t) (owners now nc nm sect) -> In (IComment t) sect.
Proof.
  induction sect as [|i sect IH]; intros now nc nm o t I; [destruct I|]. destruct i as [ [d e|p name e|ty name|bits|]|u]; cbn [owners] in I; try (right; eapply IH; exact I). destruct I as [I|I]; [left; injection I as <- <-; reflexivity|right; eapply IH; exact I].
Qed.
Lemma section_in items before sect x : sections items before sect -> In x sect \/ (exists b, before = Some b /\ In x b) -> In x items.
Proof. intros [is N|b a N M] [I|(b' & E & I)]; [exact I|discriminate E|apply in_or_app; right; right; exact I|injection E as <-; apply in_or_app; left; exact I]. Qed.
Lemma text_marked items t sect : file_text false items t -> (forall x, In x sect -> In x items) -> CodeSpec.marked_enum (text_for sect OwnType) <-> Exists asks_for_enum (comments_for sect OwnType).
Proof.
  intros F I. unfold text_for. rewrite lines_marked; [apply leading_exists|]. apply leading_forall, Forall_forall. intros x J. unfold comments_for in J. apply in_map_iff in J as ( (o & u) & <- & J). apply filter_In in J as (J & _). apply owners_in in J. apply (file_comments items t F), I, J.
Qed.
(** The code generator makes an enum of a message, request or response exactly if a comment of the type begins with the directive. *)
Theorem C128_enums_partial : forall nfc powf sort_sets to_float n k t items port p c d q before sect, parse t = Done items -> compile_one_items nfc powf sort_sets to_float n k items port p = Done (c, d, q) -> sections items before sect ->
  (placed sect -> CodeModel.has_enum_directive (type_doc (doc_now d)) = true <-> Exists asks_for_enum (comments_for sect OwnType)) /\
  (forall b, before = Some b -> placed b -> exists r, doc_request d = Some r /\ (CodeModel.has_enum_directive (type_doc r) = true <-> Exists asks_for_enum (comments_for b OwnType))).
Proof.
  intros nfc powf ss tf n k t items port p c d q before sect P H S. apply C105_accepted in P. apply C128_comments_partial in H as (before' & sect' & S' & D1 & D2).
  assert (E : before' = before /\ sect' = sect).
  { destruct S' as [is N|b a N M]; inversion S as [is' N' E1 E2 E3|b' a' N' M' E1 E2 E3]; subst; [auto| | |].
    - exfalso. apply N. apply in_or_app. right. left. reflexivity.
    - exfalso. apply N'. apply in_or_app. right. left. reflexivity.
    - apply (split_unique marker) in E1 as (-> & ->); auto. }
  destruct E as (-> & ->). split.
  - intro Pl. rewrite CodeEnumProofs.marked_right, (dc_type _ _ (D1 Pl)). apply (text_marked items t sect P). intros x I. apply (section_in items before sect x S). left. exact I.
  - intros b -> Pl. destruct (doc_request d) as [r|]; [|destruct D2]. exists r. split; [reflexivity|]. rewrite CodeEnumProofs.marked_right, (dc_type _ _ (D2 Pl)). apply (text_marked items t b P). intros x I. apply (section_in items (Some b) sect x S). right. exists b. auto.
Qed.
Print Assumptions C128_enums_partial.

(** * Examples *)

Definition ex_items := compile_one_items (fun t => t) (fun _ _ => None) (fun l => l) (fun _ _ => None) 3 (key_in "T").
Definition ex_docs (t : text) : out (doc_state) := obind (parse t) (fun is => obind (ex_items is None (Persistent [] [])) (fun r => Done (snd (fst r)))).
Definition texts (d : docs) : text * list text * list text := (type_doc d, map snd (constant_docs d), map snd (member_docs d)).
Fixpoint rows (l : list string) : text := match l with [] => [] | s :: r => name_of s ++ 10 :: rows r end.
Definition documented_source : text := rows ["#"; "#[canadensis(enum)]"; "# states"; "uint8 IDLE = 0 # waits"; "uint8 BUSY = 1 # works"; "# hard"; "uint8 state # now"; "uint8 LAST = 1"; "# same"; "@sealed"; "---"; "@union"; "uint8 a #first"; "float32 b"; "@sealed"]%string.
Example C128_witness : obind (ex_docs documented_source) (fun d => Done (option_map texts (doc_request d), texts (doc_now d))) =
  Done (Some (name_of "[canadensis(enum)]" ++ 10 :: name_of " states", [name_of " waits"; name_of " works" ++ 10 :: name_of " hard"; name_of " same"], [name_of " now"]), ([], [], [name_of "first"; [] ])).
Proof. vm_compute. reflexivity. Qed.

(** Comments that are dropped: any in a struct after the directive about sealing or extent, those in a union before the first constant or variant,
    and, if the offset is used in a union, those after that in a message or request, but not in a response. *)
Theorem C128_refuted :
  obind (ex_docs (rows ["uint8 a"; "@sealed # about the type"]%string)) (fun d => Done (texts (doc_now d))) = Done ([], [], [ [] ]) /\
  obind (ex_docs (rows ["@union"; "# about the type"; "uint8 a"; "uint8 b"; "@sealed"]%string)) (fun d => Done (texts (doc_now d))) = Done ([], [], [ []; [] ]) /\
  obind (ex_docs (rows ["@union"; "uint8 a"; "uint8 b"; "@assert _offset_ == {16}"; "# about b"; "@sealed"; "# still"; "---"; "@union"; "uint8 a"; "uint8 b"; "@assert _offset_ == {16}"; "# about b"; "@sealed"; "# still"]%string))
    (fun d => Done (option_map texts (doc_request d), texts (doc_now d))) = Done (Some ([], [], [ []; name_of " still"]), ([], [], [ []; name_of " about b"])).
Proof. split; [vm_compute; reflexivity|]. split; [vm_compute; reflexivity|vm_compute; reflexivity]. Qed.
Print Assumptions C128_refuted.
