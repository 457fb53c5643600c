(** Proofs about parsing: what is accepted is written by the rules, and the parser does not panic. *)
From Coq Require Import QArith Qcanon String.
From Verif Require Import Base GenModel ExprModel TextModel TextSpec TextProofs PkgModel PkgSpec CompModel ExprProofs ParseModel ParseSpec PegProofs ParseWordProofs.
Open Scope list_scope.
Open Scope N_scope.
Ltac Zify.zify_post_hook ::= Z.div_mod_to_equations.

(** * Expressions *)

(** What is matched by a rule is an expression of this level *)
Definition at_level (n : nat) (r : rule) (l : level) : Prop := forall t ts, means n (PRef r) t ts -> exists tree, ts = [tree] /\ good (fun e => spelled false l e t) (parse_expression tree).
Ltac blanks := repeat match goal with
  | H : means _ ws_opt _ _ |- _ => let B := fresh "W" in apply m_ws_opt in H as (B & ->)
  | H : means _ (PRef ws) _ _ |- _ => let B := fresh "W" in apply m_ws in H as (B & ->)
  end.
Lemma binary_sound n sub body_op l op :
  (forall k, (k < n)%nat -> at_level k sub (tighter l)) -> (forall k t ts, means k (PRef body_op) t ts -> op_spec op l t ts) -> l <> Atom ->
  forall t ts, means n (sub ~~ (ws_opt ~~ body_op ~~ ws_opt ~~ sub)^*)%peg t ts -> good (fun e => spelled false l e t) (binary_op parse_expression op ts).
Proof.
  intros SUB OP A t ts H. take H. destruct (SUB m ltac:(lia) _ _ H0) as (c & -> & C). cbn [app binary_op]. eapply good_bind; [exact C|]. intros e E. cbv beta in E. apply (sp_tighter _ l) in E; [|exact A].
  star H1 (fun t ts => forall e t0, spelled false l e t0 -> good (fun e' => spelled false l e' (t0 ++ t)) (binary_rest parse_expression op e ts)).
  - intros e' t' X. cbn. rewrite app_nil_r. exact X.
  - intros k x1 xs x2 ys L' X IH e' t' E'. take X. blanks. match goal with H : means _ (PRef body_op) _ _ |- _ => destruct (OP _ _ _ H) as (o & b & s & -> & B & I & ->) end. match goal with H : means ?k (PRef sub) _ _ |- _ => destruct (SUB k ltac:(lia) _ _ H) as (c' & -> & C') end.
    cbn [app binary_rest]. eapply good_bind; [exact C'|]. intros rhs R. rewrite B. repeat rewrite <- app_assoc. match goal with |- good (fun e => spelled false l e (t' ++ ?w1 ++ name_of s ++ ?w2 ++ ?u ++ x2)) _ => apply (good_imp (fun e'' => spelled false l e'' ((t' ++ w1 ++ name_of s ++ w2 ++ u) ++ x2))) end; [intros e''; repeat rewrite <- app_assoc; exact (fun X => X)|]. apply IH. apply sp_binary; assumption.
  - apply H1, E.
Qed.

(** Types *)
Lemma type_sound n : (forall k, (k < n)%nat -> at_level k expression Logical) -> forall t ts, means n (PRef dtype_) t ts ->
  exists cs, ts = [Node dtype_ t cs] /\ good (fun ty => type_text false ty t) (parse_data_type parse_expression cs).
Proof.
  intros EX t ts H. take_ref H.
  - take_ref H; take_ref H; blanks; match goal with H : means _ (PRef type_scalar) _ _ |- _ => apply scalar_sound in H as (el & -> & R & G) end; match goal with H : means ?k (PRef expression) _ _ |- _ => destruct (EX k ltac:(lia) _ _ H) as (len & -> & E) end;
      eexists; (split; [reflexivity|]); cbn [parse_data_type app]; (eapply good_bind; [exact G|]); intros s S; (eapply good_bind; [exact E|]); intros e X; cbn [array_rule good]; apply tt_array; cbv beta in *.
    + apply (at_array _ _ _ _ _ _ "<="); try assumption. cbn; auto.
    + apply (at_array _ _ _ _ _ _ "<"); try assumption. cbn; auto.
    + match goal with |- array_text _ _ _ _ (?t ++ ?w1 ++ name_of "[" ++ ?w2 ++ ?r) => apply (at_array _ s t w1 w2 AFixed "" []); try assumption; [cbn; auto|constructor] end.
  - apply scalar_sound in H as (tree & -> & R & G). eexists. split; [reflexivity|]. destruct tree as [r x cs]. cbn in R. subst r. cbn [parse_data_type]. eapply good_bind; [exact G|]. intros s S. cbn. constructor. exact S.
Qed.
(** Lists *)
Lemma list_sound n : (forall k, (k < n)%nat -> at_level k expression Logical) -> forall t ts, means n (PRef expression_list) t ts ->
  exists cs, ts = [Node expression_list t cs] /\ good (fun es => elements false es t) (parse_all parse_expression cs).
Proof.
  intros EX t ts H. take_ref H; [exists []; split; [reflexivity|constructor]|]. match goal with H : means ?k (PRef expression) _ _ |- _ => destruct (EX k ltac:(lia) _ _ H) as (c & -> & C) end. eexists. split; [reflexivity|]. cbn [app parse_all]. eapply good_bind; [exact C|]. intros e E. cbv beta in E. clear C.
  match goal with H : means _ (PStar _) _ _ |- _ => star H (fun t ts => forall e t0, spelled false Logical e t0 -> good (fun es => elements false (e :: es) (t0 ++ t)) (parse_all parse_expression ts)) end.
  - intros e' t' X. cbn. rewrite app_nil_r. constructor. exact X.
  - intros k x1 xs x2 ys L' X IH e' t' E'. take X. blanks. match goal with H : means ?k (PRef expression) _ _ |- _ => destruct (EX k ltac:(lia) _ _ H) as (c' & -> & C') end. cbn [app parse_all]. eapply good_bind; [exact C'|]. intros e2 E2. cbv beta in E2.
    eapply good_bind; [apply (IH _ _ E2)|]. intros es ES. cbn [good]. repeat rewrite <- app_assoc. apply el_more; try assumption. discriminate.
  - eapply good_bind; [match goal with H : forall e t0, _ -> good _ _ |- _ => apply (H _ _ E) end|]. intros es ES. exact ES.
Qed.
Lemma literal_sound n : (forall k, (k < n)%nat -> at_level k expression Logical) -> forall t ts, means n (PRef literal) t ts ->
  exists c, ts = [Node literal t [c] ] /\ good (fun e => spelled false Atom e t) (parse_literal parse_expression c).
Proof.
  intros EX t ts H. take_ref H.
  - take_ref H. blanks. match goal with H : means ?k (PRef expression_list) _ _ |- _ => destruct (list_sound k (fun j J => EX j ltac:(lia)) _ _ H) as (cs & -> & C) end. eexists. split; [reflexivity|]. cbn [app parse_literal]. eapply good_bind; [exact C|]. intros es ES. cbn. apply sp_set; assumption.
  - apply real_sound in H as (tree & -> & R & G). exists tree. split; [reflexivity|]. destruct tree as [r x cs]. cbn in R. subst r. cbn [parse_literal]. eapply good_bind; [exact G|]. intros q Q. apply sp_number. exact Q.
  - apply integer_sound in H as (tree & -> & R & G). exists tree. split; [reflexivity|]. destruct tree as [r x cs]. cbn in R. subst r. cbn [parse_literal]. eapply good_bind; [exact G|]. intros q Q. apply sp_number. exact Q.
  - apply string_sound in H as (tree & -> & R & G). exists tree. split; [reflexivity|]. destruct tree as [r x cs]. cbn in R. subst r. cbn [parse_literal]. eapply good_bind; [exact G|]. intros q Q. exact Q.
  - take_ref H; take_ref H; (eexists; split; [reflexivity|]); [apply sp_true|apply sp_false].
Qed.
Definition level_of (r : rule) : option level :=
  match r with
  | expression | ex_logical => Some Logical
  | ex_logical_not | op1_form_log_not => Some Negation
  | ex_comparison => Some Comparison
  | ex_bitwise => Some Bitwise
  | ex_additive => Some Sum
  | ex_multiplicative => Some Product
  | ex_inversion | op1_form_inv_pos | op1_form_inv_neg => Some Sign
  | ex_exponential => Some Power
  | ex_attribute => Some Postfix
  | expression_atom => Some Atom
  | _ => None
  end.
Lemma expression_sound n : forall r l, level_of r = Some l -> at_level n r l.
Proof.
  induction n as [n IH] using lt_wf_ind. intros r l LV t ts H.
  assert (EX : forall k, (k < n)%nat -> at_level k expression Logical) by (intros k K; apply (IH k K); reflexivity).
  assert (BIN : forall sub body_op op, level_of sub = Some (tighter l) -> (forall k t ts, means k (PRef body_op) t ts -> op_spec op l t ts) -> l <> Atom ->
    forall k t ts, (k < n)%nat -> means k (sub ~~ (ws_opt ~~ body_op ~~ ws_opt ~~ sub)^*)%peg t ts -> good (fun e => spelled false l e t) (binary_op parse_expression op ts)).
  { intros sub body_op op S O A k t' ts' K M. apply (binary_sound k sub body_op); try assumption. intros j J. apply (IH j ltac:(lia)). exact S. }
  destruct r; try discriminate LV; injection LV as <-.
  - take_ref H. destruct (IH m L ex_logical Logical eq_refl _ _ H) as (tree & -> & G). eexists. split; [reflexivity|]. exact G.
  - take_ref H; blanks.
    + match goal with H : means ?k (PRef expression_parenthesized) _ _ |- _ => take_ref H end. blanks. match goal with H : means ?k (PRef expression) _ _ |- _ => destruct (EX k ltac:(lia) _ _ H) as (c & -> & C) end. eexists. split; [reflexivity|]. cbn [parse_expression app parse_atom].
      eapply good_imp; [|exact C]. intros e E. apply sp_parentheses; assumption.
    + match type of H with means ?j _ _ _ => destruct (type_sound j (fun k K => EX k ltac:(lia)) _ _ H) as (cs & -> & G) end. eexists. split; [reflexivity|]. cbn [parse_expression parse_atom]. eapply good_bind; [exact G|]. intros ty T. cbn [good]. destruct T; [apply sp_scalar|apply sp_array]; assumption.
    + match type of H with means ?j _ _ _ => destruct (literal_sound j (fun k K => EX k ltac:(lia)) _ _ H) as (c & -> & G) end. eexists. split; [reflexivity|]. exact G.
    + apply m_identifier in H as (I & ->). eexists. split; [reflexivity|]. cbn. apply sp_name; [exact I|discriminate].
  - apply m_ref in H as (m & L & us & H & ->). eexists. split; [reflexivity|]. cbn [parse_expression]. apply (BIN ex_logical_not op2_log log_op eq_refl m_log ltac:(discriminate) m _ _ L H).
  - take_ref H.
    + destruct (IH m0 ltac:(lia) op1_form_log_not Negation eq_refl _ _ H) as (tree & -> & G). eexists. split; [reflexivity|]. exact G.
    + match type of H with means ?j _ _ _ => destruct (IH j ltac:(lia) ex_comparison Comparison eq_refl _ _ H) as (tree & -> & G) end. eexists. split; [reflexivity|]. eapply good_imp; [|exact G]. intros e E. apply sp_tighter; [discriminate|exact E].
  - apply m_ref in H as (m & L & us & H & ->). eexists. split; [reflexivity|]. cbn [parse_expression]. apply (BIN ex_bitwise op2_cmp cmp_op eq_refl m_cmp ltac:(discriminate) m _ _ L H).
  - apply m_ref in H as (m & L & us & H & ->). eexists. split; [reflexivity|]. cbn [parse_expression]. apply (BIN ex_additive op2_bit bit_op eq_refl m_bit ltac:(discriminate) m _ _ L H).
  - apply m_ref in H as (m & L & us & H & ->). eexists. split; [reflexivity|]. cbn [parse_expression]. apply (BIN ex_multiplicative op2_add add_op eq_refl m_add ltac:(discriminate) m _ _ L H).
  - apply m_ref in H as (m & L & us & H & ->). eexists. split; [reflexivity|]. cbn [parse_expression]. apply (BIN ex_inversion op2_mul mul_op eq_refl m_mul ltac:(discriminate) m _ _ L H).
  - take_ref H.
    + match type of H with means ?j _ _ _ => destruct (IH j ltac:(lia) op1_form_inv_pos Sign eq_refl _ _ H) as (tree & -> & G) end. eexists. split; [reflexivity|]. exact G.
    + match type of H with means ?j _ _ _ => destruct (IH j ltac:(lia) op1_form_inv_neg Sign eq_refl _ _ H) as (tree & -> & G) end. eexists. split; [reflexivity|]. exact G.
    + match type of H with means ?j _ _ _ => destruct (IH j ltac:(lia) ex_exponential Power eq_refl _ _ H) as (tree & -> & G) end. eexists. split; [reflexivity|]. eapply good_imp; [|exact G]. intros e E. apply sp_tighter; [discriminate|exact E].
  - take_ref H; blanks; match goal with H : means ?k (PRef ex_attribute) _ _ |- _ => destruct (IH k ltac:(lia) ex_attribute Postfix eq_refl _ _ H) as (c & -> & C) end.
    + eexists. split; [reflexivity|]. cbn [parse_expression app binary_op binary_rest]. eapply good_bind; [exact C|]. intros e E. cbn [good]. rewrite app_nil_r. apply sp_tighter; [discriminate|exact E].
    + match goal with H : means ?k (PRef op2_exp) _ _ |- _ => take_ref H; take_ref H end. match goal with H : means ?k (PRef ex_inversion) _ _ |- _ => destruct (IH k ltac:(lia) ex_inversion Sign eq_refl _ _ H) as (c' & -> & C') end.
      eexists. split; [reflexivity|]. cbn [parse_expression app binary_op binary_rest]. eapply good_bind; [exact C|]. intros e E. eapply good_bind; [exact C'|]. intros e' E'. cbn [deepest exp_op binary_rest good]. apply sp_power; assumption.
  - take_ref H. match goal with H : means ?k (PRef expression_atom) _ _ |- _ => destruct (IH k ltac:(lia) expression_atom Atom eq_refl _ _ H) as (c & -> & C) end. eexists. split; [reflexivity|]. cbn [parse_expression app]. eapply good_bind; [exact C|]. intros e E. cbv beta in E. apply (sp_tighter _ Postfix) in E; [|discriminate]. clear C.
    match goal with H : means _ (PStar _) _ _ |- _ => star H (fun t ts => forall e t0, spelled false Postfix e t0 -> good (fun e' => spelled false Postfix e' (t0 ++ t)) (attribute_rest e ts)) end.
    * intros e' t' X. cbn. rewrite app_nil_r. exact X.
    * intros k x1 xs x2 ys L' X IH' e' t' E'. take X. blanks. match goal with H : means _ (PRef op2_attrib) _ _ |- _ => take_ref H end. match goal with H : means _ (PRef identifier_) _ _ |- _ => apply m_identifier in H as (I & ->) end.
      cbn [app attribute_rest]. repeat rewrite <- app_assoc. match goal with |- good (fun e => spelled false _ e (t' ++ ?w1 ++ ?d ++ ?w2 ++ ?u ++ x2)) _ => apply (good_imp (fun e'' => spelled false Postfix e'' ((t' ++ w1 ++ d ++ w2 ++ u) ++ x2))) end; [intros e''; repeat rewrite <- app_assoc; exact (fun X => X)|].
      apply IH'. apply sp_attribute; try assumption. discriminate.
    * match goal with H : forall e t0, _ -> good _ _ |- _ => apply (H _ _ E) end.
  - take_ref H. blanks. match goal with H : means ?k (PRef ex_logical_not) _ _ |- _ => destruct (IH k ltac:(lia) ex_logical_not Negation eq_refl _ _ H) as (c & -> & C) end. eexists. split; [reflexivity|]. cbn [parse_expression app unary_op]. eapply good_bind; [exact C|]. intros e E. apply sp_not; assumption.
  - take_ref H. blanks. match goal with H : means ?k (PRef ex_exponential) _ _ |- _ => destruct (IH k ltac:(lia) ex_exponential Power eq_refl _ _ H) as (c & -> & C) end. eexists. split; [reflexivity|]. cbn [parse_expression app unary_op]. eapply good_bind; [exact C|]. intros e E. apply sp_plus; assumption.
  - take_ref H. blanks. match goal with H : means ?k (PRef ex_exponential) _ _ |- _ => destruct (IH k ltac:(lia) ex_exponential Power eq_refl _ _ H) as (c & -> & C) end. eexists. split; [reflexivity|]. cbn [parse_expression app unary_op]. eapply good_bind; [exact C|]. intros e E. apply sp_minus; assumption.
Qed.

(** * Files *)

Lemma directive_of_right name : directive_name (directive_of name) name.
Proof.
  unfold directive_of, directive_name. assert (T : forall s, text_eqb name (name_of s) = true -> name = name_of s) by (intros s H; apply (proj1 (text_eqb_eq _ _)), H).
  repeat match goal with |- context[if text_eqb name (name_of ?s) then ?d else _] => destruct (text_eqb name (name_of s)) eqn:?; [left; exists s; split; [cbn; tauto|apply T; assumption]|] end.
  right. split; [reflexivity|]. intros d s I ->. cbn [directive_names In] in I. repeat (destruct I as [I|I]; [injection I as <- <-; match goal with H : text_eqb ?x ?x = false |- _ => pose proof (proj2 (text_eqb_eq x x) eq_refl); congruence end|]). destruct I.
Qed.
Lemma check_field_right t : check_field_type t = true -> field_type t.
Proof. intro H. split; [intros ->; discriminate H|]. split; [intros ->; discriminate H|]. intros n ->. discriminate H. Qed.
Lemma expression_good n t ts : means n (PRef expression) t ts -> exists tree, ts = [tree] /\ good (fun e => spelled false Logical e t) (parse_expression tree).
Proof. apply (expression_sound n expression Logical eq_refl). Qed.
Definition statement_good (t : text) (ts : list tree) : Prop :=
  exists tree, ts = [tree] /\ good (fun i => exists st, i = Some (IStatement st) /\ statement_text false st t) (parse_statement tree).
Lemma statement_sound n t ts : means n (PRef statement_) t ts -> statement_good t ts.
Proof.
  intro H. take_ref H.
  - take_ref H; take_ref H; blanks; match goal with H : means _ (PRef identifier_) _ _ |- _ => apply m_identifier in H as (I & ->) end; (eexists; split; [reflexivity|]); cbn [app].
    + match goal with H : means _ (PRef expression) _ _ |- _ => apply expression_good in H as (tree & -> & G) end. cbn [app parse_statement]. eapply good_bind; [exact G|]. intros e E. cbn [good]. eexists. split; [reflexivity|]. apply st_directive_of; try assumption. apply directive_of_right.
    + cbn. eexists. split; [reflexivity|]. apply st_directive; [apply directive_of_right|exact I].
  - take_ref H. star H1 (fun t (ts : list tree) => Forall (fun c => c = 45) t /\ ts = []); [split; [constructor|reflexivity]| |].
    + intros k x1 xs x2 ys _ X (F & ->). take X. split; [constructor; [reflexivity|exact F]|reflexivity].
    + destruct H1 as (F & ->). eexists. split; [reflexivity|]. cbn. eexists. split; [reflexivity|]. apply st_marker, F.
  - take_ref H.
    + take_ref H. blanks. match goal with H : means _ (PRef identifier_) _ _ |- _ => apply m_identifier in H as (I & ->) end. match goal with H : means _ (PRef expression) _ _ |- _ => apply expression_good in H as (tree & -> & G) end. match goal with H : means _ (PRef type_primitive) _ _ |- _ => apply primitive_sound in H as (ty & -> & _ & P) end.
      eexists. split; [reflexivity|]. cbn [app parse_statement]. eapply good_bind; [exact P|]. intros p PP. eapply good_bind; [exact G|]. intros e E. cbn [good]. eexists. split; [reflexivity|]. apply st_constant; assumption.
    + take_ref H. blanks. match goal with H : means _ (PRef identifier_) _ _ |- _ => apply m_identifier in H as (I & ->) end. match goal with H : means ?k (PRef dtype_) _ _ |- _ => destruct (type_sound k (fun j _ => expression_sound j expression Logical eq_refl) _ _ H) as (cs & -> & G) end.
      eexists. split; [reflexivity|]. cbn [app parse_statement]. eapply good_bind; [exact G|]. intros ty T. destruct (check_field_type ty) eqn:C; [|exact Logic.I]. cbn [good]. eexists. split; [reflexivity|]. apply st_field; try assumption. apply check_field_right, C.
    + take_ref H. match goal with H : means _ (PRef type_void) _ _ |- _ => take_ref H end. match goal with H : means _ (PRef type_bit_length_suffix) _ _ |- _ => apply m_suffix in H as (-> & d & r & -> & Z & D) end. eexists. split; [reflexivity|]. cbn [app parse_statement].
      eapply good_bind; [apply (suffix_good d r D Z)|]. intros w W. destruct (between_1_and_64 w) eqn:B; [|exact Logic.I]. cbn [good]. eexists. split; [reflexivity|]. change (name_of "") with (@nil N). rewrite app_nil_r. apply st_padding, W. exact B.
Qed.
Lemma comment_sound n t ts : means n (PRef comment) t ts -> exists x, ts = [Node comment_content x [] ] /\ comment_part [IComment x] t.
Proof.
  intro H. take_ref H. match goal with H : means _ (PRef comment_content) _ _ |- _ => take_ref H; rename H into C end. star C (fun t (ts : list tree) => (~ In 13 t /\ ~ In 10 t) /\ ts = []).
  - split; [split; intros []|reflexivity].
  - intros k x1 xs x2 ys _ X ((A & B) & ->). take X. split; [|reflexivity]. match goal with B : ~ In _ (excluded _) |- _ => cbn [excluded app In] in B end. split; intros [X|X]; auto.
  - destruct C as ((A & B) & ->). eexists. split; [reflexivity|]. apply cp_comment; assumption.
Qed.
(** What the trees of some lines are made into, whatever follows *)
Definition lines_good (P : list item -> Prop) (ts : list tree) : Prop :=
  exists o, good P o /\ forall rest eof, parse_to_ast (ts ++ rest) eof = obind o (fun is => obind (parse_to_ast rest eof) (fun is' => Done (is ++ is'))).
Lemma obind_assoc {A B C} (o : out A) (f : A -> out B) (g : B -> out C) : obind (obind o f) g = obind o (fun a => obind (f a) g).
Proof. destruct o; reflexivity. Qed.
Lemma obind_Done {A} (o : out A) : obind o Done = o.
Proof. destruct o; reflexivity. Qed.
Lemma obind_ext {A B} (o : out A) (f g : A -> out B) : (forall a, f a = g a) -> obind o f = obind o g.
Proof. destruct o; cbn; auto. Qed.
Lemma lines_nil (P : list item -> Prop) : P [] -> lines_good P [].
Proof. intro H. exists (Done []). split; [exact H|]. intros rest eof. cbn. symmetry. rewrite <- (obind_Done (parse_to_ast rest eof)) at 2. reflexivity. Qed.
Lemma lines_app (P Q R : list item -> Prop) ts us : lines_good P ts -> lines_good Q us -> (forall i j, P i -> Q j -> R (i ++ j)) -> lines_good R (ts ++ us).
Proof.
  intros (o & G & E) (o' & G' & E') H. exists (obind o (fun i => obind o' (fun j => Done (i ++ j)))). split.
  - eapply good_bind; [exact G|]. intros i I. eapply good_bind; [exact G'|]. intros j J. apply H; assumption.
  - intros rest eof. rewrite <- app_assoc, E, obind_assoc. apply obind_ext. intro i. rewrite E', !obind_assoc. apply obind_ext. intro j. rewrite !obind_assoc. cbn [obind]. apply obind_ext. intro k. cbn [obind]. rewrite app_assoc. reflexivity.
Qed.
Lemma line_sound n t ts : means n (PRef line) t ts -> lines_good (fun is => line_text false is t) ts.
Proof.
  intro H. take_ref H; blanks.
  - apply lines_nil. apply (lt_line _ [] [] _ [] []); [constructor|assumption|constructor].
  - match goal with H : means _ (PRef comment) _ _ |- _ => apply comment_sound in H as (x & -> & C) end. exists (Done [IComment x]). split; [|reflexivity]. cbn [good]. apply (lt_line _ [] [] _ [IComment x]); [constructor|assumption|assumption].
  - match goal with H : means _ (PRef statement_) _ _ |- _ => apply statement_sound in H as (tree & -> & G) end. exists (obind (parse_statement tree) (fun i => Done (match i with Some i => [i] | None => [] end))). split.
    + eapply good_bind; [exact G|]. intros i (st & -> & S). cbn [good]. apply (lt_line _ [IStatement st] _ _ [] []); [constructor; exact S|assumption|constructor].
    + intros rest eof. cbn [app parse_to_ast]. rewrite obind_assoc. destruct (parse_statement tree) as [i| |]; [|reflexivity|reflexivity]. destruct G as (st & -> & _). reflexivity.
  - match goal with H : means _ (PRef comment) _ _ |- _ => apply comment_sound in H as (x & -> & C) end. match goal with H : means _ (PRef statement_) _ _ |- _ => apply statement_sound in H as (tree & -> & G) end.
    exists (obind (parse_statement tree) (fun i => Done ((match i with Some i => [i] | None => [] end) ++ [IComment x]))). split.
    + eapply good_bind; [exact G|]. intros i (st & -> & S). cbn [good]. apply (lt_line _ [IStatement st] _ _ [IComment x]); [constructor; exact S|assumption|exact C].
    + intros rest eof. cbn [app parse_to_ast]. rewrite obind_assoc. destruct (parse_statement tree) as [i| |]; [|reflexivity|reflexivity]. destruct G as (st & -> & _). cbn [obind parse_statement app]. rewrite obind_assoc. reflexivity.
Qed.
Lemma file_app i t eol i2 t2 : file_text false i t -> In eol [ [10]; [13; 10] ] -> file_text false i2 t2 -> file_text false (i ++ i2) (t ++ eol ++ t2).
Proof.
  intros F E G. induction F as [i t L|i1 t1 e' i' t' L E' F IH]; [apply ft_line; assumption|]. rewrite <- !app_assoc. apply ft_line; [exact L|exact E'|exact IH].
Qed.
Lemma definition_sound n t ts : means n (PRef definition) t ts -> good (fun is => file_text false is t) (parse_to_ast ts false).
Proof.
  intro H. take_ref H. match goal with H : means _ (PRef EOI) _ _ |- _ => take_ref H end. match goal with H : means _ (PRef line) _ _ |- _ => apply line_sound in H; rename H into L1' end. match goal with H : means _ (PStar _) _ _ |- _ => rename H into ST end.
  star ST (fun t ts => forall us t0, lines_good (fun is => file_text false is t0) us -> lines_good (fun is => file_text false is (t0 ++ t)) (us ++ ts)).
  - intros zs t' X. rewrite !app_nil_r. exact X.
  - intros k x1 xs x2 ys _ X IH zs t' G. rewrite !app_assoc. apply IH. take X. match goal with H : means _ (PRef line) _ _ |- _ => apply line_sound in H; rename H into L2' end.
    match goal with H : means _ (PRef end_of_line) ?x ?y |- _ => assert (EOL : y = [] /\ In x [ [10]; [13; 10] ]) by (clear - H; take_ref H; (split; [reflexivity|cbn; auto])) end. destruct EOL as (-> & EOL).
    cbn [app]. eapply lines_app; [exact G|exact L2'|]. intros i j I J. apply file_app; [exact I|exact EOL|constructor; exact J].
  - destruct (ST _ _ ltac:(eapply (lines_app (fun is => line_text false is _) (fun is => is = []) (fun is => file_text false is _) _ []); [exact L1'|apply lines_nil; reflexivity|intros i j I ->; rewrite app_nil_r; constructor; exact I])) as (o & G & E).
    rewrite app_nil_r in E. rewrite !app_nil_r. rewrite app_assoc, E. eapply good_bind; [exact G|]. intros is IS. cbn. rewrite app_nil_r. exact IS.
Qed.
Lemma parse_good s : good (fun is => file_text false is s) (parse s).
Proof.
  unfold parse. destruct (run (enough s) definition s) as [ts rest| |] eqn:R; [|exact Logic.I|exfalso; exact (enough_right definition s R)].
  destruct (run_means _ _ _ _ _ (eq_refl : nots (PRef definition) = true) R) as (t & E & M). pose proof (definition_sound _ _ _ M) as G. replace rest with (@nil N) in E; [rewrite app_nil_r in E; subst s; exact G|].
  apply (ev_run (enough s)) in R; [|discriminate]. apply ev_ref_inv in R as (t' & us & _ & R & _). cbn [grammar] in R. apply ev_seq_inv in R as (us1 & m1 & vs1 & _ & R & _). apply ev_seq_inv in R as (us2 & m2 & vs2 & _ & R & _). apply ev_ref_inv in R as (x & us3 & _ & R & _). cbn [grammar] in R. apply ev_end_inv in R as (_ & _ & R). symmetry. exact R.
Qed.
