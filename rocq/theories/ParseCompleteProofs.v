(** Proofs about parsing: expressions, statements and files are read as what they are written for. *)
From Coq Require Import QArith Qcanon String.
From Verif Require Import Base GenModel ExprModel TextModel TextSpec TextProofs PkgModel PkgSpec CompModel ExprProofs ParseModel ParseSpec PegProofs ParseWordProofs ParseSoundProofs ParseStartProofs ParseLiteralProofs.
Open Scope list_scope.
Open Scope N_scope.
Ltac Zify.zify_post_hook ::= Z.div_mod_to_equations.

(** * How expressions start and what follows them *)
Definition depth (l : level) : nat :=
  match l with Logical => 0 | Negation => 1 | Comparison => 2 | Bitwise => 3 | Sum => 4 | Product => 5 | Sign => 6 | Power => 7 | Postfix => 8 | Atom => 9 end.
Definition rule_of (l : level) : rule :=
  match l with
  | Logical => ex_logical | Negation => ex_logical_not | Comparison => ex_comparison | Bitwise => ex_bitwise | Sum => ex_additive | Product => ex_multiplicative
  | Sign => ex_inversion | Power => ex_exponential | Postfix => ex_attribute | Atom => expression_atom
  end.
Definition start (l : level) (c : N) : Prop :=
  word_char c \/ In c [40; 123; 34; 39] \/ (In c [43; 45] /\ (depth l <= 6)%nat) \/ (c = 33 /\ (depth l <= 1)%nat).
Lemma start_tighter l c : start (tighter l) c -> start l c.
Proof. unfold start. destruct l; cbn; intuition lia. Qed.
Lemma numeral_start t ds : numeral 10 t ds -> exists c r, t = c :: r /\ PkgSpec.is_digit c.
Proof. intro D. destruct (numeral_first _ _ _ D) as (c & r & d & -> & I). exists c, r. split; [reflexivity|]. unfold PkgSpec.is_digit. destruct I; lia. Qed.
Lemma point_start p v : point_literal p v -> plain p -> exists c r, point_text p = c :: r /\ PkgSpec.is_digit c.
Proof.
  intros P Q. destruct P as [t ds _|t ds D|t1 d1 t2 d2 D1 D2]; [destruct Q| |]; [destruct (numeral_start _ _ D) as (c & r & -> & C)|destruct (numeral_start _ _ D1) as (c & r & -> & C)]; exists c; eexists; (split; [reflexivity|exact C]).
Qed.
Lemma number_start t q : number_text true t q -> exists c r, t = c :: r /\ PkgSpec.is_digit c.
Proof.
  intro H. destruct H as [k t n I Z|p v q PL S V|m v e sign t ds q M E SG D S V].
  - destruct I as [x t ds X B|x t ds X B|x t ds X B|t ds D]; [| | |apply (numeral_start _ _ D)]; exists 48; eexists; (split; [reflexivity|]); unfold PkgSpec.is_digit; lia.
  - apply (point_start p v PL (S eq_refl)).
  - specialize (S eq_refl). assert (F : exists c r, mantissa_text m = c :: r /\ PkgSpec.is_digit c). { destruct m as [p|x]; cbn [mantissa mantissa_text plain_mantissa] in *; [apply (point_start p v M S)|]. destruct M as (xs & M & _). apply (numeral_start _ _ M). }
    destruct F as (c & r & -> & C). exists c. eexists. split; [reflexivity|exact C].
Qed.
Lemma identifier_start n : identifier n -> exists c r, n = c :: r /\ (PkgSpec.is_letter c \/ c = 95).
Proof. intros (c & r & -> & C & _). eauto. Qed.
Lemma scalar_start s t : scalar_name s t -> exists c r, t = c :: r /\ (PkgSpec.is_letter c \/ c = 95).
Proof.
  intro S. destruct S as [p t P|t n W|path name t1 n1 t2 n2 F V1 V2].
  - assert (A : forall c b x, cast_word c b -> (exists d r, x = d :: r /\ PkgSpec.is_letter d) -> exists d r, c ++ x = d :: r /\ (PkgSpec.is_letter d \/ d = 95)).
    { intros c b x C (d & r & -> & D). destruct C; [exists d, r; auto| |]; eexists; eexists; (split; [reflexivity|]); left; unfold PkgSpec.is_letter; cbn; lia. }
    destruct P as [| | |c b t n C W|c t n C W|c b t n p C W F]; try (eexists; eexists; split; [reflexivity|]; left; unfold PkgSpec.is_letter; cbn; lia); eapply A; try exact C; eexists; eexists; (split; [reflexivity|]); unfold PkgSpec.is_letter; cbn; lia.
  - eexists. eexists. split; [reflexivity|]. left. unfold PkgSpec.is_letter. cbn. lia.
  - destruct (path ++ [name]) as [|m ms] eqn:E; [destruct path; discriminate E|]. inversion F as [|? ? I ?]; subst. destruct (identifier_start m I) as (c & r & -> & C). rewrite dotted_flat. exists c. eexists. split; [reflexivity|exact C].
Qed.
Lemma array_start s k n t : array_text true s k n t -> exists c r, t = c :: r /\ (PkgSpec.is_letter c \/ c = 95).
Proof. intros []. match goal with H : scalar_name _ _ |- _ => destruct (scalar_start _ _ H) as (c & r & -> & C) end. exists c. eexists. split; [reflexivity|exact C]. Qed.
Lemma spelled_start l e t : spelled true l e t -> exists c r, t = c :: r /\ start l c.
Proof.
  induction 1 as [l e t L S IH|l op o a ta w1 w2 b tb O A IHA W1 W2 B IHB|w e t W S IH|w e t W S IH|w e t W S IH|a ta w1 w2 b tb A IHA W1 W2 B IHB|e t w1 w2 name S IH W1 W2 I D|e t w1 w2 W1 S IH W2|t q N|q t s Q QU U| | |name I K|w1 es t w2 W1 E W2|s t S|s k n t A].
  - destruct IH as (c & r & -> & C). exists c, r. split; [reflexivity|apply start_tighter, C].
  - destruct IHA as (c & r & -> & C). exists c. eexists. split; [reflexivity|exact C].
  - eexists. eexists. split; [reflexivity|]. unfold start. cbn. lia.
  - eexists. eexists. split; [reflexivity|]. unfold start. cbn. lia.
  - eexists. eexists. split; [reflexivity|]. unfold start. cbn. lia.
  - destruct IHA as (c & r & -> & C). exists c. eexists. split; [reflexivity|]. apply (start_tighter Power), C.
  - destruct IH as (c & r & -> & C). exists c. eexists. split; [reflexivity|exact C].
  - eexists. eexists. split; [reflexivity|]. unfold start. cbn. auto.
  - destruct (number_start _ _ N) as (c & r & -> & C). exists c, r. split; [reflexivity|]. left. unfold word_char. auto.
  - exists q. eexists. split; [reflexivity|]. unfold start. cbn in *. lia.
  - eexists. eexists. split; [reflexivity|]. left. unfold word_char, PkgSpec.is_letter. cbn. lia.
  - eexists. eexists. split; [reflexivity|]. left. unfold word_char, PkgSpec.is_letter. cbn. lia.
  - destruct (identifier_start _ I) as (c & r & -> & C). exists c, r. split; [reflexivity|]. left. unfold word_char. tauto.
  - eexists. eexists. split; [reflexivity|]. unfold start. cbn. auto.
  - destruct (scalar_start _ _ S) as (c & r & -> & C). exists c, r. split; [reflexivity|]. left. unfold word_char. tauto.
  - destruct (array_start _ _ _ _ A) as (c & r & -> & C). exists c, r. split; [reflexivity|]. left. unfold word_char. tauto.
Qed.
Lemma start_not l c : start l c -> c <> 32 /\ c <> 9 /\ ~ In c [61; 124; 38; 42; 60; 62; 46; 125; 41; 93; 91; 44].
Proof. unfold start, word_char, PkgSpec.is_letter, PkgSpec.is_digit. cbn. lia. Qed.
Lemma spelled_blank l e t s : spelled true l e t -> no_blank (t ++ s).
Proof. intro S. destruct (spelled_start _ _ _ S) as (c & r & -> & C). apply start_not in C. cbn. tauto. Qed.
Lemma spelled_hd l e t s cs : spelled true l e t -> incl cs [61; 124; 38; 42; 60; 62; 46; 125; 41; 93; 91; 44] -> hd_not cs (t ++ s).
Proof. intros S I. destruct (spelled_start _ _ _ S) as (c & r & -> & C). apply start_not in C. cbn. intro X. apply I in X. tauto. Qed.
Lemma blank_hd cs w s : blank w -> ~ In 32 cs -> ~ In 9 cs -> hd_not cs s -> hd_not cs (w ++ s).
Proof. intros W A B H. destruct w as [|c w]; [exact H|]. inversion W as [|? ? C ?]; subst. cbn. destruct C as [->| ->]; assumption. Qed.

(** What follows an expression of a level: an end, an operator of a looser level, or what belongs to a looser level *)
Inductive ends (l : level) : text -> Prop :=
| en_end : ends l []
| en_closed c s : In c [41; 93; 125; 44; 35; 13; 10] -> ends l (c :: s)
| en_operator l' op o s : (depth l' < depth l)%nat -> In (op, o) (operators l') -> hd_not [61; 124; 38; 42] s -> ends l (name_of o ++ s)
| en_power s : (8 <= depth l)%nat -> ends l (name_of "**" ++ s)
| en_attribute s : l = Atom -> ends l (name_of "." ++ s).
Definition follow (l : level) (s : text) : Prop := exists w r, s = w ++ r /\ blank w /\ ends l r.
Lemma ends_deeper l l' s : (depth l <= depth l')%nat -> ends l s -> ends l' s.
Proof.
  intros D E. destruct E as [|c s I|k op o s K O H|s K|s K]; [apply en_end|apply en_closed, I|apply (en_operator l' k op); [lia|exact O|exact H]|apply en_power; lia|]. subst l. apply en_attribute. destruct l'; cbn in D; try lia. reflexivity.
Qed.
Lemma follow_deeper l l' s : (depth l <= depth l')%nat -> follow l s -> follow l' s.
Proof. intros D (w & r & E & W & X). exists w, r. split; [exact E|]. split; [exact W|]. apply (ends_deeper l); assumption. Qed.
(** An operator followed by an operand *)
Lemma operand_hd w l e t s : blank w -> spelled true l e t -> hd_not [61; 124; 38; 42] (w ++ t ++ s).
Proof. intros W S. apply blank_hd; [exact W|cbn; lia|cbn; lia|]. apply (spelled_hd l e); [exact S|]. intros x X. cbn in *. lia. Qed.
Ltac each_operator H := cbn [operators In] in H; repeat (destruct H as [H|H]; [injection H as <- <-|]); try (destruct H; fail).
Lemma operator_hd l op o : In (op, o) (operators l) -> exists c r, name_of o = c :: r /\ In c [124; 38; 61; 33; 60; 62; 94; 43; 45; 42; 47; 37].
Proof. intro H. destruct l; each_operator H; (eexists; eexists; split; [reflexivity|]; cbn; tauto). Qed.
Lemma ends_hd l s : ends l s -> match s with [] => True | c :: _ => In c [41; 93; 125; 44; 35; 13; 10; 124; 38; 61; 33; 60; 62; 94; 43; 45; 42; 47; 37] \/ (c = 46 /\ l = Atom) end.
Proof.
  intros [|c r I|k op o r K O H|r K|r K]; [exact Logic.I|left; cbn in *; lia| |left; cbn; tauto|right; split; [reflexivity|exact K] ]. destruct (operator_hd _ _ _ O) as (c & u & -> & C). left. cbn in *. lia.
Qed.
Lemma ends_blank l s : ends l s -> no_blank s.
Proof. intro E. apply ends_hd in E. destruct s as [|c s]; [exact Logic.I|]. cbn in *. lia. Qed.
Lemma ends_glue l s : ends l s -> no_glue s.
Proof. intro E. apply ends_hd in E. destruct s as [|c s]; [exact Logic.I|]. cbn in *. unfold word_char, PkgSpec.is_letter, PkgSpec.is_digit. lia. Qed.
Lemma ends_bracket l s : ends l s -> hd_not [91] s.
Proof. intro E. apply ends_hd in E. destruct s as [|c s]; [exact Logic.I|]. cbn in *. lia. Qed.
Lemma follow_word l s : follow l s -> behind_word s.
Proof. intros (w & r & -> & W & E). exists w, r. split; [reflexivity|]. split; [exact W|]. split; [apply (ends_blank l), E|]. split; [apply (ends_glue l), E|apply (ends_bracket l), E]. Qed.
Lemma follow_version l s : follow l s -> l <> Atom -> hd_not [46] s.
Proof. intros (w & r & -> & W & E) N. apply blank_hd; [exact W|cbn; lia|cbn; lia|]. apply ends_hd in E. destruct r as [|c r]; [exact Logic.I|]. destruct E as [E|(_ & E)]; [cbn in *; lia|congruence]. Qed.

(** * Operators *)
Definition chain (l : level) : option (rule * (rule -> option binary)) :=
  match l with
  | Logical => Some (op2_log, log_op) | Comparison => Some (op2_cmp, cmp_op) | Bitwise => Some (op2_bit, bit_op) | Sum => Some (op2_add, add_op) | Product => Some (op2_mul, mul_op)
  | _ => None
  end.
Definition body (op operand : rule) : peg := (ws_opt ~~ op ~~ ws_opt ~~ operand)%peg.
Lemma ev_op l r f op o x : chain l = Some (r, f) -> In (op, o) (operators l) -> hd_not [61; 124; 38; 42] x -> exists k, ev (PRef r) (name_of o ++ x) (Match [Node r (name_of o) [k]] x) /\ f (deepest k) = Some op.
Proof.
  intros C O H. assert (H61 : hd_not [61] x) by (eapply hd_not_in; [|exact H]; cbn; auto).
  assert (LE : forall c, strip [c; 61] ([c] ++ x) = None) by (intro c; cbn [app strip]; rewrite N.eqb_refl; destruct x as [|d x]; [reflexivity|]; destruct (N.eqb_spec 61 d) as [<-|]; [destruct H61; left; reflexivity|reflexivity]).
  destruct l; try discriminate C; injection C as <- <-; each_operator O.
  all: match goal with |- exists k, ev (PRef ?r) (name_of ?o ++ _) _ /\ _ = Some ?op =>
    let k := match op with LogicalOr => op2_log_or | LogicalAnd => op2_log_and | Equal => op2_cmp_equ | NotEqual => op2_cmp_neq | LessOrEqual => op2_cmp_leq | GreaterOrEqual => op2_cmp_geq | Less => op2_cmp_lss | Greater => op2_cmp_grt
      | BitOr => op2_bit_or | BitXor => op2_bit_xor | BitAnd => op2_bit_and | Add => op2_add_add | Subtract => op2_add_sub | Multiply => op2_mul_mul | Divide => op2_mul_div | Modulo => op2_mul_mod end in
    exists (Node k (name_of o) []); split; [|reflexivity]; apply ev_ref; [reflexivity|]; cbn [grammar];
    repeat (apply ev_alt_r; [apply ev_ref_no; cbn [grammar]; apply ev_str_no; first [reflexivity|apply LE]|]); first [apply ev_alt_l|idtac]; (apply ev_ref; [reflexivity|apply ev_lit]) end.
Qed.
(** Nothing of a level follows it *)
Lemma ends_stop l r f s : chain l = Some (r, f) -> ends l s -> ev (r ~~ ws_opt ~~ rule_of (tighter l))%peg s NoMatch.
Proof.
  intros C E. destruct E as [|c s I|l' op o s K O H|s K|s K].
  - apply ev_seq_no. destruct l; try discriminate C; injection C as <- <-; apply no_end; reflexivity.
  - apply ev_seq_no. destruct l; try discriminate C; injection C as <- <-; cbn in I; repeat (destruct I as [<-|I]; [apply no_start; reflexivity|]); destruct I.
  - destruct l; try discriminate C; injection C as <- <-; destruct l'; cbn in K; try lia; clear K; each_operator O; try (apply ev_seq_no, no_start; reflexivity).
    + eapply ev_seq_no2; [apply ev_ref_at with (t := name_of "|"); [reflexivity|reflexivity|]; apply ev_alt_l; apply ev_ref_at with (t := name_of "|"); [reflexivity|reflexivity|]; apply (ev_str (name_of "|"))|]. eapply ev_seq_no2; [apply (ev_ws_opt []); [constructor|]|apply no_start; reflexivity]. cbn. lia.
    + eapply ev_seq_no2; [apply ev_ref_at with (t := name_of "&"); [reflexivity|reflexivity|]; apply ev_alt_r; [apply no_start; reflexivity|]; apply ev_alt_r; [apply no_start; reflexivity|]; apply ev_ref_at with (t := name_of "&"); [reflexivity|reflexivity|]; apply (ev_str (name_of "&"))|]. eapply ev_seq_no2; [apply (ev_ws_opt []); [constructor|]|apply no_start; reflexivity]. cbn. lia.
  - destruct l; try discriminate C; cbn in K; lia.
  - subst l. discriminate C.
Qed.
Lemma body_stop l r f s : chain l = Some (r, f) -> follow l s -> ev (body r (rule_of (tighter l))) s NoMatch.
Proof. intros C (w & x & -> & W & E). eapply ev_seq_no2; [apply ev_ws_opt; [exact W|apply (ends_blank l), E]|]. apply (ends_stop l r f); assumption. Qed.
Lemma power_stop s : follow Power s -> ev (body op2_exp ex_inversion) s NoMatch.
Proof.
  intros (w & x & -> & W & E). eapply ev_seq_no2; [apply ev_ws_opt; [exact W|apply (ends_blank Power), E]|]. apply ev_seq_no. destruct E as [|c s I|l' op o s K O H|s K|s K].
  - apply no_end. reflexivity.
  - cbn in I. repeat (destruct I as [<-|I]; [apply no_start; reflexivity|]). destruct I.
  - destruct l'; cbn in K; try lia; clear K; each_operator O; try (apply no_start; reflexivity). apply ev_ref_no, ev_ref_no. cbn [grammar]. apply ev_str_no. change (strip (name_of "**") (name_of "*" ++ s)) with (strip [42] s). apply strip_hd. eapply hd_not_in; [|exact H]. cbn. auto.
  - cbn in K. lia.
  - discriminate K.
Qed.
Lemma attribute_stop s : follow Postfix s -> ev (body op2_attrib identifier_) s NoMatch.
Proof.
  intros (w & x & -> & W & E). eapply ev_seq_no2; [apply ev_ws_opt; [exact W|apply (ends_blank Postfix), E]|]. apply ev_seq_no, ev_ref_no, ev_str_no, strip_hd. apply ends_hd in E. destruct x as [|c x]; [exact Logic.I|]. destruct E as [E|(_ & E)]; [cbn in *; lia|congruence].
Qed.

(** * Operands and operators that are read from left to right *)
Record link := Link { l_op : binary; l_o : string; l_w1 : text; l_w2 : text; l_e : expr; l_t : text }.
Definition link_text (p : link) : text := l_w1 p ++ name_of (l_o p) ++ l_w2 p ++ l_t p.
Definition link_ok (l : level) (p : link) : Prop := In (l_op p, l_o p) (operators l) /\ blank (l_w1 p) /\ blank (l_w2 p) /\ spelled true (tighter l) (l_e p) (l_t p).
Definition links_text (ps : list link) : text := concat (map link_text ps).
Definition links_expr (a : expr) (ps : list link) : expr := fold_left (fun a p => EBinary (l_op p) a (l_e p)) ps a.
Lemma links_of l e t : spelled true l e t -> chain l <> None -> exists e0 t0 ps, spelled true (tighter l) e0 t0 /\ Forall (link_ok l) ps /\ t = t0 ++ links_text ps /\ e = links_expr e0 ps.
Proof.
  induction 1 as [l e t L S IH|l op o a ta w1 w2 b tb O A IHA W1 W2 B IHB|w e t W S IH|w e t W S IH|w e t W S IH|a ta w1 w2 b tb A IHA W1 W2 B IHB|e t w1 w2 name S IH W1 W2 I D|e t w1 w2 W1 S IH W2|t q N|q t s Q QU U| | |name I K|w1 es t w2 W1 E W2|s t S|s k n t A]; intro C; try (destruct C; reflexivity).
  - exists e, t, []. split; [exact S|]. split; [constructor|]. split; [symmetry; apply app_nil_r|reflexivity].
  - destruct (IHA C) as (e0 & t0 & ps & S & F & -> & ->). exists e0, t0, (ps ++ [Link op o w1 w2 b tb]). split; [exact S|]. split; [apply Forall_app; split; [exact F|constructor; [unfold link_ok; cbn; auto|constructor] ]|]. split.
    + unfold links_text. rewrite map_app, concat_app. cbn [map concat]. rewrite app_nil_r, <- !app_assoc. reflexivity.
    + unfold links_expr. rewrite fold_left_app. reflexivity.
Qed.
Lemma follow_links l ps s : chain l <> None -> Forall (link_ok l) ps -> follow l s -> follow (tighter l) (links_text ps ++ s).
Proof.
  intros C F E. assert (D : depth (tighter l) = S (depth l)) by (destruct l; try reflexivity; destruct C; reflexivity). destruct ps as [|p ps]; [apply (follow_deeper l); [lia|exact E]|]. inversion F as [|? ? (O & W1 & W2 & S) F']; subst. unfold links_text. cbn [map concat]. unfold link_text at 1. rewrite <- !app_assoc.
  eexists. eexists. split; [reflexivity|]. split; [exact W1|]. apply (en_operator _ l (l_op p)); [lia|exact O|]. apply (operand_hd _ (tighter l) (l_e p)); assumption.
Qed.
Lemma operator_blank l op o s : In (op, o) (operators l) -> no_blank (name_of o ++ s).
Proof. intro O. destruct (operator_hd _ _ _ O) as (c & r & -> & C). cbn in *. lia. Qed.
Lemma ev_links l r f (P : expr -> text -> Prop) : chain l = Some (r, f) ->
  (forall e t s, P e t -> follow (tighter l) s -> exists k, ev (PRef (rule_of (tighter l))) (t ++ s) (Match [k] s) /\ parse_expression k = Done e) ->
  forall ps a s, Forall (link_ok l) ps -> Forall (fun p => P (l_e p) (l_t p)) ps -> follow l s ->
  exists ks, ev (PStar (body r (rule_of (tighter l)))) (links_text ps ++ s) (Match ks s) /\ binary_rest parse_expression f a ks = Done (links_expr a ps).
Proof.
  intros C R ps. induction ps as [|p ps IH]; intros a s F G E.
  - exists []. split; [apply ev_star_end, (body_stop l r f); assumption|reflexivity].
  - inversion F as [|? ? K F']; subst. inversion G as [|? ? Q G']; subst. pose proof K as (O & W1 & W2 & S). pose proof (follow_links l ps s ltac:(congruence) F' E) as E'. destruct (R _ _ _ Q E') as (k & K1 & K2).
    destruct (ev_op l r f _ _ (l_w2 p ++ l_t p ++ links_text ps ++ s) C O (operand_hd _ _ _ _ _ W2 S)) as (o & O1 & O2). destruct (IH (EBinary (l_op p) a (l_e p)) s F' G' E) as (ks & I1 & I2).
    exists ([Node r (name_of (l_o p)) [o]; k] ++ ks). split.
    + unfold links_text. cbn [map concat]. rewrite <- app_assoc. eapply ev_star; [|exact I1]. unfold link_text, body. rewrite <- !app_assoc. apply (ev_seq _ _ _ [] (name_of (l_o p) ++ l_w2 p ++ l_t p ++ links_text ps ++ s) [Node r (name_of (l_o p)) [o]; k] (links_text ps ++ s)); [apply ev_ws_opt; [exact W1|apply (operator_blank l (l_op p)), O]|].
      apply (ev_seq _ _ _ [Node r (name_of (l_o p)) [o]] (l_w2 p ++ l_t p ++ links_text ps ++ s) [k] _); [exact O1|]. apply (ev_seq _ _ _ [] (l_t p ++ links_text ps ++ s) [k] _); [apply ev_ws_opt; [exact W2|apply (spelled_blank (tighter l) (l_e p)), S]|exact K1].
    + cbn [app binary_rest]. rewrite K2. cbn [obind deepest]. rewrite O2, I2. reflexivity.
Qed.

(** * Attributes *)
Record alink := ALink { a_w1 : text; a_w2 : text; a_name : text }.
Definition alink_text (p : alink) : text := a_w1 p ++ name_of "." ++ a_w2 p ++ a_name p.
Definition alink_ok (p : alink) : Prop := blank (a_w1 p) /\ blank (a_w2 p) /\ identifier (a_name p).
Definition alinks_text (ps : list alink) : text := concat (map alink_text ps).
Definition alinks_expr (a : expr) (ps : list alink) : expr := fold_left (fun a p => EAttribute a (a_name p)) ps a.
Lemma alinks_of l e t : spelled true l e t -> l = Postfix -> exists e0 t0 ps, spelled true Atom e0 t0 /\ Forall alink_ok ps /\ t = t0 ++ alinks_text ps /\ e = alinks_expr e0 ps /\ (decimal_text t0 -> match ps with p :: _ => a_w1 p <> [] | [] => True end).
Proof.
  induction 1 as [l e t L S IH|l op o a ta w1 w2 b tb O A IHA W1 W2 B IHB|w e t W S IH|w e t W S IH|w e t W S IH|a ta w1 w2 b tb A IHA W1 W2 B IHB|e t w1 w2 name S IH W1 W2 I D|e t w1 w2 W1 S IH W2|t q N|q t s Q QU U| | |name I K|w1 es t w2 W1 E W2|s t S|s k n t A]; intro C; try discriminate C.
  - subst l. exists e, t, []. split; [exact S|]. split; [constructor|]. split; [symmetry; apply app_nil_r|]. split; [reflexivity|auto].
  - subst l. destruct O.
  - destruct (IH C) as (e0 & t0 & ps & S0 & F & -> & -> & N). exists e0, t0, (ps ++ [ALink w1 w2 name]). split; [exact S0|]. split; [apply Forall_app; split; [exact F|constructor; [unfold alink_ok; cbn; auto|constructor] ]|]. split; [|split].
    + unfold alinks_text. rewrite map_app, concat_app. cbn [map concat]. rewrite app_nil_r, <- !app_assoc. reflexivity.
    + unfold alinks_expr. rewrite fold_left_app. reflexivity.
    + intro T. destruct ps as [|p ps]; [|apply N, T]. apply (D eq_refl). cbn. rewrite app_nil_r. exact T.
Qed.
Lemma alinks_follow ps s : Forall alink_ok ps -> follow Postfix s -> follow Atom (alinks_text ps ++ s).
Proof.
  intros F E. destruct ps as [|p ps]; [apply (follow_deeper Postfix); [cbn; lia|exact E]|]. inversion F as [|? ? (W1 & W2 & I) F']; subst. unfold alinks_text. cbn [map concat]. unfold alink_text at 1. rewrite <- !app_assoc. eexists. eexists. split; [reflexivity|]. split; [exact W1|]. apply en_attribute. reflexivity.
Qed.
Lemma alinks_glue ps s : Forall alink_ok ps -> follow Postfix s -> no_glue (alinks_text ps ++ s).
Proof. intros F E. apply behind_glue, (follow_word Atom), alinks_follow; assumption. Qed.
Lemma alinks_cons p ps s : alinks_text (p :: ps) ++ s = a_w1 p ++ name_of "." ++ a_w2 p ++ a_name p ++ alinks_text ps ++ s.
Proof. unfold alinks_text. cbn [map concat]. unfold alink_text at 1. rewrite <- !app_assoc. reflexivity. Qed.
Lemma blank_start w : blank w -> w <> [] -> exists c r, w = c :: r /\ (c = 32 \/ c = 9).
Proof. intros W N. destruct w as [|c w]; [congruence|]. inversion W; subst. eauto. Qed.
Lemma alinks_version ps s : Forall alink_ok ps -> follow Postfix s -> no_version (alinks_text ps ++ s).
Proof.
  intros F E. assert (H : exists ks x, ev ((lit "." ~~ identifier_)^*)%peg (alinks_text ps ++ s) (Match ks x) /\ ev (lit "." ~~ type_version_specifier)%peg x NoMatch).
  { induction ps as [|p ps IH].
    - exists [], s. pose proof (follow_version _ _ E ltac:(discriminate)) as H. split; [apply ev_star_end, ev_seq_no, ev_str_no, strip_hd, H|apply ev_seq_no, ev_str_no, strip_hd, H].
    - inversion F as [|? ? (W1 & W2 & I) F']; subst. specialize (IH F'). rewrite alinks_cons. destruct (a_w1 p) as [|c1 w1] eqn:E1; [destruct (a_w2 p) as [|c2 w2] eqn:E2|].
      + destruct IH as (ks & x & I1 & I2). eexists. exists x. split; [|exact I2]. cbn [app]. eapply ev_star; [|exact I1]. eapply ev_seq; [apply (ev_lit ".")|]. apply ev_identifier; [exact I|apply alinks_glue; assumption].
      + eexists. eexists. inversion W2 as [|? ? C ?]; subst. split; [apply ev_star_end; eapply ev_seq_no2; [apply (ev_lit ".")|]|eapply ev_seq_no2; [apply (ev_lit ".")|] ]; cbn [app].
        * apply ev_no_identifier. unfold PkgSpec.is_letter. lia.
        * destruct C as [->| ->]; apply no_start; reflexivity.
      + eexists. eexists. inversion W1 as [|? ? C ?]; subst. assert (X : forall y, strip (name_of ".") (c1 :: y) = None) by (intro y; destruct C as [->| ->]; reflexivity). cbn [app]. split; [apply ev_star_end, ev_seq_no, ev_str_no, X|apply ev_seq_no, ev_str_no, X]. }
  destruct H as (ks & x & H1 & H2). eapply ev_seq_no2; [exact H1|exact H2].
Qed.
Lemma ev_alinks ps : forall a s, Forall alink_ok ps -> follow Postfix s -> exists ks, ev (PStar (body op2_attrib identifier_)) (alinks_text ps ++ s) (Match ks s) /\ attribute_rest a ks = Done (alinks_expr a ps).
Proof.
  induction ps as [|p ps IH]; intros a s F E.
  - exists []. split; [apply ev_star_end, attribute_stop, E|reflexivity].
  - inversion F as [|? ? (W1 & W2 & I) F']; subst. destruct (IH (EAttribute a (a_name p)) s F' E) as (ks & I1 & I2). exists ([Node op2_attrib (name_of ".") []; Node identifier_ (a_name p) []] ++ ks). split; [|exact I2].
    unfold alinks_text. cbn [map concat]. rewrite <- app_assoc. eapply ev_star; [|exact I1]. unfold alink_text, body. rewrite <- !app_assoc. fold (alinks_text ps).
    apply (ev_seq _ _ _ [] (name_of "." ++ a_w2 p ++ a_name p ++ alinks_text ps ++ s) [Node op2_attrib (name_of ".") []; Node identifier_ (a_name p) []] _); [apply ev_ws_opt; [exact W1|cbn; lia]|].
    apply (ev_seq _ _ _ [Node op2_attrib (name_of ".") []] (a_w2 p ++ a_name p ++ alinks_text ps ++ s) [Node identifier_ (a_name p) []] _); [apply ev_ref; [reflexivity|apply ev_lit]|].
    apply (ev_seq _ _ _ [] (a_name p ++ alinks_text ps ++ s) [Node identifier_ (a_name p) []] _); [apply ev_ws_opt; [exact W2|]|apply ev_identifier; [exact I|apply alinks_glue; assumption] ].
    destruct (identifier_start _ I) as (c & r & -> & C). cbn. unfold PkgSpec.is_letter in C. lia.
Qed.

(** * Expressions *)
Definition reads (n : nat) : Prop := forall l e t, (20 * length t + (10 - depth l) < n)%nat -> spelled true l e t -> forall s, follow l s ->
  (l = Atom -> no_version s /\ (decimal_text t -> hd_not [46] s)) -> exists k, ev (PRef (rule_of l)) (t ++ s) (Match [k] s) /\ parse_expression k = Done e.
Lemma ev_expression n e t s : reads n -> (20 * length t + 10 < n)%nat -> spelled true Logical e t -> follow Logical s -> exists k, ev (PRef expression) (t ++ s) (Match [k] s) /\ parse_expression k = Done e.
Proof.
  intros R L S E. destruct (R Logical e t ltac:(cbn [depth]; lia) S s E ltac:(discriminate)) as (k & K1 & K2). exists (Node expression t [k]). split; [|exact K2]. apply ev_ref; [reflexivity|]. exact K1.
Qed.
Lemma follow_closed l w c s : blank w -> In c [41; 93; 125; 44; 35; 13; 10] -> follow l (w ++ c :: s).
Proof. intros W C. exists w, (c :: s). split; [reflexivity|]. split; [exact W|apply en_closed, C]. Qed.
(** No atom but a literal starts with this *)
Lemma ev_literal t c s : (exists d r, t = d :: r /\ (PkgSpec.is_digit d \/ In d [34; 39; 123])) -> ev (PRef literal) (t ++ s) (Match [Node literal t [c]] s) -> ev (PRef expression_atom) (t ++ s) (Match [Node expression_atom t [Node literal t [c]]] s).
Proof.
  intros (d & r & -> & D) R. apply ev_ref; [reflexivity|]. cbn [grammar]. assert (I : In d (decimals ++ [34; 39; 123])) by (apply in_app_iff; destruct D as [D|D]; [left; apply decimals_all, D|right; exact D]).
  apply ev_alt_r; [cbn [app]; apply (no_start_in _ (decimals ++ [34; 39; 123])); [lazy; reflexivity|exact I]|]. apply ev_alt_r; [cbn [app]; apply (no_start_in _ (decimals ++ [34; 39; 123])); [lazy; reflexivity|exact I]|]. apply ev_alt_l, R.
Qed.
Lemma ev_elements n es ts w s : reads n -> elements true es ts -> (20 * length ts + 10 < n)%nat -> es <> [] -> blank w ->
  exists ks, ev (expression ~~ (ws_opt ~~ lit "," ~~ ws_opt ~~ expression)^*)%peg (ts ++ w ++ name_of "}" ++ s) (Match ks (w ++ name_of "}" ++ s)) /\ parse_all parse_expression ks = Done es.
Proof.
  intros R H. induction H as [|e t S|e t w1 w2 es ts S W1 W2 H IH NE]; intros L N W; [congruence| |].
  - destruct (ev_expression n e t (w ++ name_of "}" ++ s) R ltac:(lia) S) as (k & K1 & K2). { apply (follow_closed Logical w 125 s); [exact W|cbn; auto]. }
    exists [k]. split; [|cbn [parse_all]; rewrite K2; reflexivity]. apply (ev_seq _ _ _ [k] (w ++ name_of "}" ++ s) [] _); [exact K1|]. apply ev_star_end. eapply ev_seq_no2; [apply ev_ws_opt; [exact W|cbn; lia]|]. apply ev_seq_no, ev_str_no. reflexivity.
  - rewrite !app_length in L. destruct (IH ltac:(lia) NE W) as (ks & I1 & I2). rewrite <- !app_assoc. destruct (ev_expression n e t (w1 ++ name_of "," ++ w2 ++ ts ++ w ++ name_of "}" ++ s) R ltac:(lia) S) as (k & K1 & K2). { apply (follow_closed Logical w1 44); [exact W1|cbn; auto]. }
    apply ev_seq_inv in I1 as (us & mid & vs & J1 & J2 & ->). exists ([k] ++ us ++ vs). split.
    + eapply ev_seq; [exact K1|]. eapply ev_star; [|exact J2]. apply (ev_seq _ _ _ [] (name_of "," ++ w2 ++ ts ++ w ++ name_of "}" ++ s) us _); [apply ev_ws_opt; [exact W1|cbn; lia]|]. apply (ev_seq _ _ _ [] (w2 ++ ts ++ w ++ name_of "}" ++ s) us _); [apply ev_lit|].
      apply (ev_seq _ _ _ [] (ts ++ w ++ name_of "}" ++ s) us _); [apply ev_ws_opt; [exact W2|]|exact J1]. destruct H as [|e' t' S'|e' t' w1' w2' es' ts' S' ? ? ? ?]; [congruence|apply (spelled_blank Logical e'), S'|rewrite <- app_assoc; apply (spelled_blank Logical e'), S'].
    + cbn [app parse_all]. rewrite K2. cbn [obind]. rewrite I2. reflexivity.
Qed.
Lemma ev_array n sc kind len t s : reads n -> array_text true sc kind len t -> (20 * length t < n)%nat ->
  exists r cs, ev (PRef type_array) (t ++ s) (Match [Node type_array t [Node r t cs]] s) /\ parse_data_type parse_expression [Node type_array t [Node r t cs]] = Done (TypeArray sc kind len).
Proof.
  intros R A L. destruct A as [sc t w1 w2 k o w3 ln tn w4 S W1 W2 K W3 N W4]. rewrite !app_length in L. change (length (name_of "[")) with 1%nat in L. change (length (name_of "]")) with 1%nat in L.
  set (tail := w1 ++ name_of "[" ++ w2 ++ name_of o ++ w3 ++ tn ++ w4 ++ name_of "]" ++ s). set (all := t ++ w1 ++ name_of "[" ++ w2 ++ name_of o ++ w3 ++ tn ++ w4 ++ name_of "]"). assert (EQ : all ++ s = t ++ tail) by (unfold all, tail; rewrite <- !app_assoc; reflexivity).
  destruct (ev_scalar sc t tail S) as (cs & C1 & C2). { apply blank_glue; [exact W1|]. cbn. unfold word_char, PkgSpec.is_letter, PkgSpec.is_digit. lia. } { apply no_point_version, blank_hd; [exact W1|cbn; lia|cbn; lia|cbn; lia]. }
  destruct (ev_expression n ln tn (w4 ++ name_of "]" ++ s) R ltac:(lia) N) as (x & X1 & X2). { apply (follow_closed Logical w4 93); [exact W4|cbn; auto]. }
  assert (NB : forall u, no_blank (tn ++ u)) by (intro u; apply (spelled_blank Logical ln), N).
  assert (BACK : ev (ws_opt ~~ expression ~~ ws_opt ~~ lit "]")%peg (w3 ++ tn ++ w4 ++ name_of "]" ++ s) (Match [x] s)).
  { apply (ev_seq _ _ _ [] (tn ++ w4 ++ name_of "]" ++ s) [x] s); [apply ev_ws_opt; [exact W3|apply NB]|]. apply (ev_seq _ _ _ [x] (w4 ++ name_of "]" ++ s) [] s); [exact X1|]. apply (ev_seq _ _ _ [] (name_of "]" ++ s) [] s); [apply ev_ws_opt; [exact W4|cbn; lia]|apply ev_lit]. }
  assert (HD : hd_not [60; 61] (w3 ++ tn ++ w4 ++ name_of "]" ++ s)) by (apply blank_hd; [exact W3|cbn; lia|cbn; lia|]; apply (spelled_hd Logical ln); [exact N|intros y Y; cbn in *; lia]).
  (* what the three forms have in common *)
  assert (YES : forall p ks y, no_blank y -> tail = w1 ++ name_of "[" ++ w2 ++ y -> ev p y (Match ks s) -> ev (type_scalar ~~ ws_opt ~~ lit "[" ~~ ws_opt ~~ p)%peg (t ++ tail) (Match (Node type_scalar t cs :: ks) s)).
  { intros p ks y B E P. apply (ev_seq _ _ _ [Node type_scalar t cs] tail ks s); [exact C1|]. rewrite E. apply (ev_seq _ _ _ [] (name_of "[" ++ w2 ++ y) ks s); [apply ev_ws_opt; [exact W1|cbn; lia]|]. apply (ev_seq _ _ _ [] (w2 ++ y) ks s); [apply ev_lit|]. apply (ev_seq _ _ _ [] y ks s); [apply ev_ws_opt; [exact W2|exact B]|exact P]. }
  assert (NO : forall p y, no_blank y -> (exists v, w1 ++ name_of "[" ++ v ++ y = tail /\ blank v) -> ev p y NoMatch -> ev (type_scalar ~~ ws_opt ~~ lit "[" ~~ ws_opt ~~ p)%peg (t ++ tail) NoMatch).
  { intros p y B (v & E & V) P. eapply ev_seq_no2; [exact C1|]. rewrite <- E. eapply ev_seq_no2; [apply ev_ws_opt; [exact W1|cbn; lia]|]. eapply ev_seq_no2; [apply ev_lit|]. eapply ev_seq_no2; [apply ev_ws_opt; [exact V|exact B]|exact P]. }
  destruct K as [ [= <- <-]|[ [= <- <-]|[ [= <- <-]|[] ] ] ].
  - exists type_array_variable_inclusive, [Node type_scalar t cs; x]. split; [|cbn [parse_data_type]; rewrite C2; cbn [obind]; rewrite X2; reflexivity]. fold all. apply ev_ref; [reflexivity|]. cbn [grammar]. apply ev_alt_l. apply ev_ref; [reflexivity|]. cbn [grammar]. rewrite EQ.
    apply (YES _ [x] (name_of "<=" ++ w3 ++ tn ++ w4 ++ name_of "]" ++ s)); [cbn; lia|reflexivity|]. apply (ev_seq _ _ _ [] (w3 ++ tn ++ w4 ++ name_of "]" ++ s) [x] s); [apply ev_lit|exact BACK].
  - exists type_array_variable_exclusive, [Node type_scalar t cs; x]. split; [|cbn [parse_data_type]; rewrite C2; cbn [obind]; rewrite X2; reflexivity]. fold all. apply ev_ref; [reflexivity|]. cbn [grammar]. apply ev_alt_r.
    { apply ev_ref_no. cbn [grammar]. rewrite EQ. apply (NO _ (name_of "<" ++ w3 ++ tn ++ w4 ++ name_of "]" ++ s)); [cbn; lia|exists w2; split; [reflexivity|exact W2]|]. apply ev_seq_no, ev_str_no. change (strip (name_of "<=") (name_of "<" ++ ?y)) with (strip [61] y). apply strip_hd. eapply hd_not_in; [|exact HD]. cbn. auto. }
    apply ev_alt_l. apply ev_ref; [reflexivity|]. cbn [grammar]. rewrite EQ.
    apply (YES _ [x] (name_of "<" ++ w3 ++ tn ++ w4 ++ name_of "]" ++ s)); [cbn; lia|reflexivity|]. apply (ev_seq _ _ _ [] (w3 ++ tn ++ w4 ++ name_of "]" ++ s) [x] s); [apply ev_lit|exact BACK].
  - assert (B' : blank (w2 ++ w3)) by (apply Forall_app; split; assumption). assert (T' : tail = w1 ++ name_of "[" ++ (w2 ++ w3) ++ tn ++ w4 ++ name_of "]" ++ s) by (unfold tail; rewrite <- !app_assoc; reflexivity).
    exists type_array_fixed, [Node type_scalar t cs; x]. split; [|cbn [parse_data_type]; rewrite C2; cbn [obind]; rewrite X2; reflexivity]. fold all. apply ev_ref; [reflexivity|]. cbn [grammar].
    assert (H60 : hd_not [60] (tn ++ w4 ++ name_of "]" ++ s)) by (apply (spelled_hd Logical ln); [exact N|intros y Y; cbn in *; lia]).
    apply ev_alt_r; [apply ev_ref_no; cbn [grammar]; rewrite EQ; apply (NO _ (tn ++ w4 ++ name_of "]" ++ s)); [apply NB|exists (w2 ++ w3); split; [symmetry; exact T'|exact B']|apply ev_seq_no, ev_str_no, strip_hd, H60]|].
    apply ev_alt_r; [apply ev_ref_no; cbn [grammar]; rewrite EQ; apply (NO _ (tn ++ w4 ++ name_of "]" ++ s)); [apply NB|exists (w2 ++ w3); split; [symmetry; exact T'|exact B']|apply ev_seq_no, ev_str_no, strip_hd, H60]|].
    apply ev_ref; [reflexivity|]. cbn [grammar]. rewrite EQ. apply (ev_seq _ _ _ [Node type_scalar t cs] tail [x] s); [exact C1|]. rewrite T'. apply (ev_seq _ _ _ [] (name_of "[" ++ (w2 ++ w3) ++ tn ++ w4 ++ name_of "]" ++ s) [x] s); [apply ev_ws_opt; [exact W1|cbn; lia]|]. apply (ev_seq _ _ _ [] ((w2 ++ w3) ++ tn ++ w4 ++ name_of "]" ++ s) [x] s); [apply ev_lit|].
    apply (ev_seq _ _ _ [] (tn ++ w4 ++ name_of "]" ++ s) [x] s); [apply ev_ws_opt; [exact B'|apply NB]|]. apply (ev_seq _ _ _ [x] (w4 ++ name_of "]" ++ s) [] s); [exact X1|]. apply (ev_seq _ _ _ [] (name_of "]" ++ s) [] s); [apply ev_ws_opt; [exact W4|cbn; lia]|apply ev_lit].
Qed.
Lemma links_length ps p : In p ps -> (length (l_t p) + length (name_of (l_o p)) <= length (links_text ps))%nat.
Proof.
  induction ps as [|q ps IH]; [intros []|]. unfold links_text. cbn [map concat]. rewrite app_length. intros [->|I]; [unfold link_text; rewrite !app_length; lia|]. specialize (IH I). unfold links_text in IH. lia.
Qed.
Lemma operator_length l op o : In (op, o) (operators l) -> (1 <= length (name_of o))%nat.
Proof. intro O. destruct (operator_hd _ _ _ O) as (c & r & -> & _). cbn [length]. lia. Qed.
Lemma read_chain n l r f e t s : reads n -> chain l = Some (r, f) -> grammar (rule_of l) = (rule_of (tighter l) ~~ (body r (rule_of (tighter l)))^*)%peg -> silent (rule_of l) = false -> 
  (forall x cs, parse_expression (Node (rule_of l) x cs) = binary_op parse_expression f cs) ->
  (20 * length t + (10 - depth l) < S n)%nat -> spelled true l e t -> follow l s -> exists k, ev (PRef (rule_of l)) (t ++ s) (Match [k] s) /\ parse_expression k = Done e.
Proof.
  intros R C G SI PE L S E. assert (D : depth (tighter l) = Datatypes.S (depth l) /\ tighter l <> Atom /\ (depth l <= 5)%nat) by (destruct l; try discriminate C; cbn; repeat split; try discriminate; lia). destruct D as (D & NA & D5).
  destruct (links_of l e t S ltac:(congruence)) as (e0 & t0 & ps & S0 & F & -> & ->). rewrite app_length in L.
  destruct (R (tighter l) e0 t0 ltac:(lia) S0 (links_text ps ++ s) (follow_links l ps s ltac:(congruence) F E) ltac:(congruence)) as (k & K1 & K2).
  destruct (ev_links l r f (fun e t => (20 * length t + (10 - depth (tighter l)) < n)%nat /\ spelled true (tighter l) e t) C) with (ps := ps) (a := e0) (s := s) as (ks & K3 & K4); try assumption.
  - intros e' t' s' (L' & S') E'. apply (R (tighter l)); [exact L'|exact S'|exact E'|congruence].
  - rewrite Forall_forall in *. intros p I. pose proof (links_length ps p I). destruct (F p I) as (O & _ & _ & S'). pose proof (operator_length _ _ _ O). split; [lia|exact S'].
  - exists (Node (rule_of l) (t0 ++ links_text ps) (k :: ks)). split.
    + apply ev_ref; [exact SI|]. rewrite G, <- app_assoc. apply (ev_seq _ _ _ [k] (links_text ps ++ s) ks s); [exact K1|exact K3].
    + rewrite PE. cbn [binary_op]. rewrite K2. exact K4.
Qed.
Lemma reads_all n : reads n.
Proof.
  induction n as [|n R]; [intros l e t L; lia|]. intros l e t L S s E X.
  assert (CH : chain l <> None -> exists k, ev (PRef (rule_of l)) (t ++ s) (Match [k] s) /\ parse_expression k = Done e).
  { intro C. destruct l; try (destruct C; reflexivity).
    - apply (read_chain n Logical op2_log log_op); try assumption; try reflexivity.
    - apply (read_chain n Comparison op2_cmp cmp_op); try assumption; try reflexivity.
    - apply (read_chain n Bitwise op2_bit bit_op); try assumption; try reflexivity.
    - apply (read_chain n Sum op2_add add_op); try assumption; try reflexivity.
    - apply (read_chain n Product op2_mul mul_op); try assumption; try reflexivity. }
  destruct l; try (apply CH; discriminate); clear CH; cbn [rule_of].
  - (* Negation *)
    inversion S as [? ? ? _ S'|? ? ? ? ? ? ? ? ? O|w e' t' W S'| | | | | | | | | | | | | ]; subst; [|destruct O|].
    + destruct (R Comparison e t ltac:(cbn [depth] in *; lia) S' s (follow_deeper Negation Comparison s ltac:(cbn; lia) E) ltac:(discriminate)) as (k & K1 & K2). exists k. split; [|exact K2]. apply ev_silent; [reflexivity|]. cbn [grammar]. apply ev_alt_r; [|exact K1].
      destruct (spelled_start _ _ _ S') as (c & r & -> & C). apply ev_ref_no, ev_seq_no, ev_str_no, strip_hd. cbn. unfold start, word_char, PkgSpec.is_letter, PkgSpec.is_digit in C. cbn in C. lia.
    + rewrite !app_length in L. change (length (name_of "!")) with 1%nat in L. destruct (R Negation e' t' ltac:(cbn [depth] in *; lia) S' s E ltac:(discriminate)) as (k & K1 & K2). exists (Node op1_form_log_not (name_of "!" ++ w ++ t') [k]). split; [|cbn [parse_expression unary_op]; rewrite K2; reflexivity].
      apply ev_silent; [reflexivity|]. cbn [grammar]. apply ev_alt_l. apply ev_ref; [reflexivity|]. cbn [grammar]. rewrite <- !app_assoc. apply (ev_seq _ _ _ [] (w ++ t' ++ s) [k] s); [apply ev_lit|]. apply (ev_seq _ _ _ [] (t' ++ s) [k] s); [apply ev_ws_opt; [exact W|apply (spelled_blank Negation e'), S']|exact K1].
  - (* Sign *)
    inversion S as [? ? ? _ S'|? ? ? ? ? ? ? ? ? O| |w e' t' W S'|w e' t' W S'| | | | | | | | | | | ]; subst; [|destruct O| |].
    + destruct (R Power e t ltac:(cbn [depth] in *; lia) S' s (follow_deeper Sign Power s ltac:(cbn; lia) E) ltac:(discriminate)) as (k & K1 & K2). exists k. split; [|exact K2]. apply ev_silent; [reflexivity|]. cbn [grammar].
      assert (H : hd_not [43; 45] (t ++ s)). { destruct (spelled_start _ _ _ S') as (c & r & -> & C). cbn. unfold start, word_char, PkgSpec.is_letter, PkgSpec.is_digit in C. cbn in C. lia. }
      apply ev_alt_r; [apply ev_ref_no, ev_seq_no, ev_str_no, strip_hd; eapply hd_not_in; [|exact H]; cbn; auto|]. apply ev_alt_r; [apply ev_ref_no, ev_seq_no, ev_str_no, strip_hd; eapply hd_not_in; [|exact H]; cbn; auto|]. exact K1.
    + rewrite !app_length in L. change (length (name_of "+")) with 1%nat in L. destruct (R Power e' t' ltac:(cbn [depth] in *; lia) S' s (follow_deeper Sign Power s ltac:(cbn; lia) E) ltac:(discriminate)) as (k & K1 & K2). exists (Node op1_form_inv_pos (name_of "+" ++ w ++ t') [k]). split; [|cbn [parse_expression unary_op]; rewrite K2; reflexivity].
      apply ev_silent; [reflexivity|]. cbn [grammar]. apply ev_alt_l. apply ev_ref; [reflexivity|]. cbn [grammar]. rewrite <- !app_assoc. apply (ev_seq _ _ _ [] (w ++ t' ++ s) [k] s); [apply ev_lit|]. apply (ev_seq _ _ _ [] (t' ++ s) [k] s); [apply ev_ws_opt; [exact W|apply (spelled_blank Power e'), S']|exact K1].
    + rewrite !app_length in L. change (length (name_of "-")) with 1%nat in L. destruct (R Power e' t' ltac:(cbn [depth] in *; lia) S' s (follow_deeper Sign Power s ltac:(cbn; lia) E) ltac:(discriminate)) as (k & K1 & K2). exists (Node op1_form_inv_neg (name_of "-" ++ w ++ t') [k]). split; [|cbn [parse_expression unary_op]; rewrite K2; reflexivity].
      apply ev_silent; [reflexivity|]. cbn [grammar]. apply ev_alt_r; [apply no_start; reflexivity|]. apply ev_alt_l. apply ev_ref; [reflexivity|]. cbn [grammar]. rewrite <- !app_assoc. apply (ev_seq _ _ _ [] (w ++ t' ++ s) [k] s); [apply ev_lit|]. apply (ev_seq _ _ _ [] (t' ++ s) [k] s); [apply ev_ws_opt; [exact W|apply (spelled_blank Power e'), S']|exact K1].
  - (* Power *)
    inversion S as [? ? ? _ S'|? ? ? ? ? ? ? ? ? O| | | |a ta w1 w2 b tb A W1 W2 B| | | | | | | | | | ]; subst; [|destruct O|].
    + destruct (R Postfix e t ltac:(cbn [depth] in *; lia) S' s (follow_deeper Power Postfix s ltac:(cbn; lia) E) ltac:(discriminate)) as (k & K1 & K2). exists (Node ex_exponential t [k]). split; [|cbn [parse_expression binary_op]; rewrite K2; reflexivity]. apply ev_ref; [reflexivity|]. cbn [grammar]. apply (ev_seq _ _ _ [k] s [] s); [exact K1|]. apply ev_opt_no, power_stop, E.
    + rewrite !app_length in L. change (length (name_of "**")) with 2%nat in L. rewrite <- !app_assoc.
      assert (E1 : follow Postfix (w1 ++ name_of "**" ++ w2 ++ tb ++ s)) by (eexists; eexists; split; [reflexivity|]; split; [exact W1|apply en_power; cbn; lia]).
      destruct (R Postfix a ta ltac:(cbn [depth] in *; lia) A (w1 ++ name_of "**" ++ w2 ++ tb ++ s) E1 ltac:(discriminate)) as (k & K1 & K2).
      assert (E2 : follow Sign s). { destruct E as (w & r & -> & W & E). exists w, r. split; [reflexivity|]. split; [exact W|]. destruct E as [|c r I|l' op o r K O H|r K|r K]; [apply en_end|apply en_closed, I| |cbn in K; lia|discriminate K]. apply (en_operator _ l' op); [|exact O|exact H]. destruct l'; cbn in *; try lia; destruct O. }
      destruct (R Sign b tb ltac:(cbn [depth] in *; lia) B s E2 ltac:(discriminate)) as (k' & K3 & K4).
      exists (Node ex_exponential (ta ++ w1 ++ name_of "**" ++ w2 ++ tb) [k; Node op2_exp (name_of "**") [Node op2_exp_pow (name_of "**") []]; k']). split.
      * apply (ev_ref_at _ _ (ta ++ w1 ++ name_of "**" ++ w2 ++ tb)); [reflexivity|rewrite <- !app_assoc; reflexivity|]. cbn [grammar]. apply (ev_seq _ _ _ [k] (w1 ++ name_of "**" ++ w2 ++ tb ++ s) [Node op2_exp (name_of "**") [Node op2_exp_pow (name_of "**") []]; k'] s); [exact K1|]. apply ev_opt.
        apply (ev_seq _ _ _ [] (name_of "**" ++ w2 ++ tb ++ s) [Node op2_exp (name_of "**") [Node op2_exp_pow (name_of "**") []]; k'] s); [apply ev_ws_opt; [exact W1|cbn; lia]|].
        apply (ev_seq _ _ _ [Node op2_exp (name_of "**") [Node op2_exp_pow (name_of "**") []]] (w2 ++ tb ++ s) [k'] s); [apply ev_ref; [reflexivity|]; cbn [grammar]; apply ev_ref; [reflexivity|apply ev_lit]|].
        apply (ev_seq _ _ _ [] (tb ++ s) [k'] s); [apply ev_ws_opt; [exact W2|apply (spelled_blank Sign b), B]|exact K3].
      * cbn [parse_expression binary_op]. rewrite K2. cbn [obind binary_rest]. rewrite K4. reflexivity.
  - (* Postfix *)
    destruct (alinks_of Postfix e t S eq_refl) as (e0 & t0 & ps & S0 & F & -> & -> & N). rewrite app_length in L. rewrite <- app_assoc.
    destruct (R Atom e0 t0 ltac:(cbn [depth] in *; lia) S0 (alinks_text ps ++ s) (alinks_follow ps s F E)) as (k & K1 & K2).
    { intros _. split; [apply alinks_version; assumption|]. intro T. specialize (N T). destruct ps as [|p ps]; [apply (follow_version Postfix); [exact E|discriminate]|]. rewrite alinks_cons. inversion F as [|? ? (W1 & _) _]; subst. destruct (blank_start _ W1 N) as (c & r & -> & C). cbn. lia. }
    destruct (ev_alinks ps e0 s F E) as (ks & K3 & K4). exists (Node ex_attribute (t0 ++ alinks_text ps) (k :: ks)). split; [|cbn [parse_expression]; rewrite K2; exact K4].
    apply (ev_ref_at _ _ (t0 ++ alinks_text ps)); [reflexivity|rewrite <- app_assoc; reflexivity|]. cbn [grammar]. apply (ev_seq _ _ _ [k] (alinks_text ps ++ s) ks s); [exact K1|exact K3].
  - (* Atom *)
    destruct (X eq_refl) as (V & DT). clear X. pose proof (follow_word Atom s E) as BW. pose proof (behind_glue s BW) as G. cbn [depth] in L.
    inversion S as [? ? ? NA S'|? ? ? ? ? ? ? ? ? O| | | | | |e' t' w1 w2 W1 S' W2|t' q N|q t' v Q QU U| | |name I K|w1 es ts w2 W1 EL W2|sc t' SC|sc k ln t' A]; subst; [congruence|destruct O| | | | | | | | |].
    + rewrite !app_length in L. change (length (name_of "(")) with 1%nat in L. change (length (name_of ")")) with 1%nat in L.
      destruct (ev_expression n e t' (w2 ++ name_of ")" ++ s) R ltac:(lia) S') as (k & K1 & K2). { apply (follow_closed Logical w2 41); [exact W2|cbn; auto]. }
      eexists. split; [apply ev_ref; [reflexivity|]; cbn [grammar]; apply ev_alt_l; apply ev_ref; [reflexivity|]; cbn [grammar]; rewrite <- !app_assoc; apply (ev_seq _ _ _ [] (w1 ++ t' ++ w2 ++ name_of ")" ++ s) [k] s); [apply ev_lit|]; apply (ev_seq _ _ _ [] (t' ++ w2 ++ name_of ")" ++ s) [k] s); [apply ev_ws_opt; [exact W1|apply (spelled_blank Logical e), S']|];
        apply (ev_seq _ _ _ [k] (w2 ++ name_of ")" ++ s) [] s); [exact K1|]; apply (ev_seq _ _ _ [] (name_of ")" ++ s) [] s); [apply ev_ws_opt; [exact W2|cbn; lia]|apply ev_lit]|]. exact K2.
    + destruct (ev_number t q s N G DT) as (c & C1 & C2). eexists. split; [apply ev_literal; [|exact C1]|apply C2]. destruct (number_start _ _ N) as (d & r & D1 & D2). exists d, r. auto.
    + destruct (ev_string q t' v s Q QU (U (or_introl eq_refl))) as (c & C1 & C2). eexists. split; [apply ev_literal; [|exact C1]|apply C2]. exists q, (t' ++ [q]). split; [reflexivity|]. right. cbn in *. lia.
    + eexists. split; [apply (ev_truth true s G V)|reflexivity].
    + eexists. split; [apply (ev_truth false s G V)|reflexivity].
    + eexists. split; [apply ev_name; [exact I|apply K; reflexivity|exact BW|exact V]|reflexivity].
    + rewrite !app_length in L. change (length (name_of "{")) with 1%nat in L. change (length (name_of "}")) with 1%nat in L. set (t' := name_of "{" ++ w1 ++ ts ++ w2 ++ name_of "}").
      assert (LS : exists el, ev (PRef literal_set) (t' ++ s) (Match [Node literal_set t' [Node expression_list ts el]] s) /\ parse_all parse_expression el = Done es).
      { destruct es as [|e es].
        - inversion EL as [|? ? ?|]; subst. exists []. split; [|reflexivity]. apply ev_ref; [reflexivity|]. cbn [grammar]. unfold t'. rewrite <- !app_assoc. cbn [app]. apply (ev_seq _ _ _ [] (w1 ++ w2 ++ name_of "}" ++ s) [Node expression_list [] []] s); [apply (ev_lit "{")|]. rewrite app_assoc.
          apply (ev_seq _ _ _ [] (name_of "}" ++ s) [Node expression_list [] []] s); [apply ev_ws_opt; [apply Forall_app; split; assumption|cbn; lia]|]. apply (ev_seq _ _ _ [Node expression_list [] []] (name_of "}" ++ s) [] s); [apply (ev_ref_at _ _ []); [reflexivity|reflexivity|]; cbn [grammar]; apply ev_opt_no, ev_seq_no, no_start; reflexivity|].
          apply (ev_seq _ _ _ [] (name_of "}" ++ s) [] s); [apply (ev_ws_opt []); [constructor|cbn; lia]|apply ev_lit].
        - destruct (ev_elements n (e :: es) ts w2 s R EL ltac:(lia) ltac:(discriminate) W2) as (el & E1 & E2). exists el. split; [|exact E2]. apply ev_ref; [reflexivity|]. cbn [grammar]. unfold t'. rewrite <- !app_assoc. apply (ev_seq _ _ _ [] (w1 ++ ts ++ w2 ++ name_of "}" ++ s) [Node expression_list ts el] s); [apply ev_lit|].
          apply (ev_seq _ _ _ [] (ts ++ w2 ++ name_of "}" ++ s) [Node expression_list ts el] s); [apply ev_ws_opt; [exact W1|]|]. { inversion EL as [|? ? S'|? ? ? ? ? ? S']; subst; [|rewrite <- app_assoc]; apply (spelled_blank Logical e), S'. }
          apply (ev_seq _ _ _ [Node expression_list ts el] (w2 ++ name_of "}" ++ s) [] s); [apply ev_ref; [reflexivity|]; cbn [grammar]; apply ev_opt, E1|]. apply (ev_seq _ _ _ [] (name_of "}" ++ s) [] s); [apply ev_ws_opt; [exact W2|cbn; lia]|apply ev_lit]. }
      destruct LS as (el & E1 & E2). eexists. split; [apply ev_literal; [exists 123; eexists; split; [reflexivity|]; right; cbn; auto|apply ev_ref; [reflexivity|]; cbn [grammar]; apply ev_alt_l, E1]|].
      change (obind (parse_all parse_expression el) (fun l => Done (ESet l)) = Done (ESet es)). rewrite E2. reflexivity.
    + destruct (ev_dtype_scalar sc t s SC G V (behind_bracket s BW)) as (cs & C1 & C2). exists (Node expression_atom t [Node dtype_ t [Node type_scalar t cs]]). split.
      * apply ev_ref; [reflexivity|]. cbn [grammar]. apply ev_alt_r; [|apply ev_alt_l, C1]. destruct (scalar_start _ _ SC) as (c & r & -> & C). cbn [app]. apply (no_start_in _ letters); [lazy; reflexivity|apply letters_all, C].
      * change (obind (obind (parse_scalar_type (Node type_scalar t cs)) (fun s => Done (TypeScalar s))) (fun t => Done (type_expr t)) = Done (EScalar sc)). rewrite C2. reflexivity.
    + destruct (ev_array n sc k ln t s R A ltac:(lia)) as (r & cs & C1 & C2). exists (Node expression_atom t [Node dtype_ t [Node type_array t [Node r t cs]]]). split.
      * apply ev_ref; [reflexivity|]. cbn [grammar]. apply ev_alt_r; [|apply ev_alt_l; apply ev_ref; [reflexivity|]; cbn [grammar]; apply ev_alt_l, C1]. destruct (array_start _ _ _ _ A) as (c & r' & -> & C). cbn [app]. apply (no_start_in _ letters); [lazy; reflexivity|apply letters_all, C].
      * change (obind (parse_data_type parse_expression [Node type_array t [Node r t cs]]) (fun t => Done (type_expr t)) = Done (EArray sc k ln)). rewrite C2. reflexivity.
Qed.
