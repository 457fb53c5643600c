(** Properties of the parser of DSDL files. *)
From Coq Require Import QArith Qcanon String.
From Verif Require Import Base GenModel ExprModel TextModel TextSpec TextProofs PkgModel PkgSpec PkgProofs CompModel ExprProofs ParseModel ParseSpec PegProofs ParseWordProofs ParseSoundProofs ParseStartProofs ParseLiteralProofs ParseCompleteProofs ParseFileProofs.
Open Scope list_scope.
Open Scope N_scope.

(** * C103: whatever the text, parsing ends, and without a panic *)
Theorem C103_never_panics : forall s, parse s <> Crash.
Proof. intros s E. pose proof (parse_good s) as G. rewrite E in G. exact G. Qed.
Print Assumptions C103_never_panics.
(** A match of any rule ends, whatever the text: the fuel of the model is enough *)
Theorem C103_ends : forall r s, run (enough s) (PRef r) s <> Unfinished.
Proof. exact enough_right. Qed.
Print Assumptions C103_ends.
Definition fails {A} (x : out A) : bool := match x with Fail => true | _ => false end.
Example C103_witness : Forall (fun s => fails (parse (name_of s)) = true) ["@assert ((1 + 2)"; "uint65 x"; "uint8 x = "; ".5"; "@print .5"; "uint8 x y"; "utf8 x"; "a.300.0 x"]%string.
Proof. repeat constructor. Qed.

(** * C104: a file is read as the statements it is written for *)
Theorem C104_files : forall is t, file_text true is t -> parse t = Done is.
Proof. exact parse_complete. Qed.
Print Assumptions C104_files.
(** ... so a text cannot be written for two lists of statements *)
Theorem C104_unambiguous : forall is is' t, file_text true is t -> file_text true is' t -> is = is'.
Proof. intros is is' t A B. apply parse_complete in A, B. congruence. Qed.
Print Assumptions C104_unambiguous.
Definition seven : Qc := Q2Qc (7 # 1).
Definition half : Qc := Q2Qc (decimal [0] [5]).
Lemma seven_text : spelled true Atom (ENumber seven) (name_of "7").
Proof. apply sp_number. change seven with (Q2Qc (Z.of_N (number 10 [7]) # 1)). apply (nt_integer true Decimal (name_of "7")); [apply il_decimal, (nu_digit 10 55 7), (di_decimal 10 7); lia|]. intros _. left. exists 55, []. split; [reflexivity|discriminate]. Qed.
Lemma raise l l' e t : (depth l' <= depth l)%nat -> spelled true l e t -> spelled true l' e t.
Proof.
  intros D S. assert (H : forall k l', (depth l - depth l' <= k)%nat -> (depth l' <= depth l)%nat -> spelled true l' e t). { induction k as [|k IH]; intros m K L.
    - assert (m = l) as -> by (destruct m, l; cbn in *; congruence || lia). exact S.
    - destruct (Nat.eq_dec (depth m) (depth l)) as [E|N]; [assert (m = l) as -> by (destruct m, l; cbn in *; congruence || lia); exact S|]. assert (NA : m <> Atom) by (intros ->; destruct l; cbn in *; lia). assert (DT : depth (tighter m) = Datatypes.S (depth m)) by (destruct m; reflexivity || congruence). apply sp_tighter; [exact NA|]. apply IH; lia. }
  apply (H (depth l - depth l')%nat l'); lia.
Qed.
(** truncated uint8 LIMIT = -7 ** 7 # most
    uint8[<=LIMIT] names
    @sealed *)
Definition sample : text := name_of "truncated uint8 LIMIT = -7 ** 7 # most" ++ [13; 10] ++ name_of "ns.Name.1.0[<=LIMIT] names" ++ [10; 10] ++ name_of "@sealed ".
Definition sample_items : list item :=
  [IStatement (SConstant (PUInt 8) (name_of "LIMIT") (EUnary UnaryMinus (EBinary Exponent (ENumber seven) (ENumber seven)))); IComment (name_of " most");
   IStatement (SField (TypeArray (Versioned (Key [name_of "ns"] (name_of "Name") 1 0)) AInclusive (EIdentifier (name_of "LIMIT"))) (name_of "names"));
   IStatement (SDirective DSealed None)].
Ltac word := match goal with |- identifier ?x => let y := eval vm_compute in x in change x with y; match y with ?c :: ?r => exists c, r end; split; [reflexivity|]; split; [unfold PkgSpec.is_letter; lia|repeat (apply Forall_cons; [unfold PkgSpec.is_letter, PkgSpec.is_digit; lia|]); apply Forall_nil] end.
Lemma blank_one : blank [32].
Proof. repeat constructor. Qed.
Lemma blank_none : blank [].
Proof. constructor. Qed.
Lemma space_one : space [32].
Proof. split; [exact blank_one|discriminate]. Qed.
Lemma width_8 : width (name_of "8") 8.
Proof. split; [apply (dn_one 56); unfold PkgSpec.is_digit; lia|]. split; [exists 56, []; split; [reflexivity|discriminate]|lia]. Qed.
Lemma version_1 : version_number (name_of "1") 1.
Proof. split; [apply (dn_one 49); unfold PkgSpec.is_digit; lia|]. split; [left; exists 49, []; split; [reflexivity|discriminate]|lia]. Qed.
Lemma version_0 : version_number (name_of "0") 0.
Proof. split; [apply (dn_one 48); unfold PkgSpec.is_digit; lia|]. split; [right; repeat constructor|lia]. Qed.
Lemma limit_name : ~ starts_like_a_keyword (name_of "LIMIT").
Proof. intro H. inversion H as [w r I E|w c r I C E]; subst; cbn in I; repeat (destruct I as [<-|I]; [discriminate E|]); destruct I. Qed.
Example C104_witness : file_text true sample_items sample.
Proof.
  unfold sample, sample_items. match goal with |- file_text _ (?a :: ?b :: ?r) ?t => change (file_text true ([a; b] ++ r) t) end. apply ft_line; [|cbn; auto|].
  - change (name_of "truncated uint8 LIMIT = -7 ** 7 # most") with (name_of "truncated uint8 LIMIT = -7 ** 7" ++ [32] ++ name_of "# most"). apply (lt_line true [_] _ _ [_]); [|exact blank_one|apply (cp_comment (name_of " most")); vm_compute; lia]. apply sp_statement.
    apply (st_constant true (PUInt 8) (name_of "truncated uint8") [32] (name_of "LIMIT") [32] [32] _ (name_of "-7 ** 7")); [|exact space_one|word|exact blank_one|exact blank_one|].
    + apply (pn_uint (name_of "truncated" ++ [32]) true (name_of "8") 8 (cw_truncated [32] space_one) width_8).
    + apply (raise Sign); [cbn; lia|]. apply (sp_minus true []); [exact blank_none|]. apply (sp_power true _ (name_of "7") [32] [32] _ (name_of "7")); [apply (raise Atom); [cbn; lia|exact seven_text]|exact blank_one|exact blank_one|apply (raise Atom); [cbn; lia|exact seven_text] ].
  - match goal with |- file_text _ (?a :: ?r) ?t => change (file_text true ([a] ++ r) t) end. apply (ft_line true [_] _ [10] _ ([10] ++ name_of "@sealed ")); [|cbn; auto|].
    + apply (lt_line true [_] (name_of "ns.Name.1.0[<=LIMIT] names") [] [] []); [|exact blank_none|constructor]. apply sp_statement. apply (st_field true _ (name_of "ns.Name.1.0[<=LIMIT]") [32] (name_of "names")); [|split; [discriminate|split; [discriminate|intros n X; discriminate X] ]|exact space_one|word].
      apply tt_array. apply (at_array true _ (name_of "ns.Name.1.0") [] [] AInclusive "<=" [] _ (name_of "LIMIT") []); try exact blank_none; [|cbn; auto|].
      * apply (sn_versioned [name_of "ns"] (name_of "Name") (name_of "1") 1 (name_of "0") 0); [|exact version_1|exact version_0]. repeat (apply Forall_cons; [word|]). apply Forall_nil.
      * apply (raise Atom); [cbn; lia|]. apply sp_name; [word|]. intros _. exact limit_name.
    + apply (ft_line true [] [] [10] [IStatement (SDirective DSealed None)] (name_of "@sealed ")); [apply (lt_line true [] [] [] [] []); [constructor|exact blank_none|constructor]|cbn; auto|]. apply ft_last. apply (lt_line true [_] (name_of "@sealed") [32] [] []); [|exact blank_one|constructor]. apply sp_statement. apply (st_directive true DSealed (name_of "sealed")); [|word]. left. exists "sealed"%string. split; [cbn; tauto|reflexivity].
Qed.

(** * C105: whatever is accepted is written by the rules, for the statements that are returned *)
Theorem C105_accepted : forall is t, parse t = Done is -> file_text false is t.
Proof. intros is t E. pose proof (parse_good t) as G. rewrite E in G. exact G. Qed.
Print Assumptions C105_accepted.
Example C105_witness : parse sample = Done sample_items.
Proof. apply C104_files, C104_witness. Qed.

(** * C106: which operands belong to which operator *)
Definition level_of (op : binary) : level :=
  match op with
  | LogicalOr | LogicalAnd => Logical
  | Equal | NotEqual | LessOrEqual | GreaterOrEqual | Less | Greater => Comparison
  | BitOr | BitXor | BitAnd => Bitwise
  | Add | Subtract => Sum
  | Multiply | Divide | Modulo => Product
  | Exponent => Power
  end.
Lemma binary_spelled op l1 l2 a ta w1 w2 b tb : spelled true l1 a ta -> spelled true l2 b tb -> blank w1 -> blank w2 ->
  (depth (match op with Exponent => Postfix | _ => level_of op end) <= depth l1)%nat -> (depth (match op with Exponent => Sign | _ => tighter (level_of op) end) <= depth l2)%nat ->
  spelled true (level_of op) (EBinary op a b) (ta ++ w1 ++ name_of (symbol op) ++ w2 ++ tb).
Proof.
  intros A B W1 W2 D1 D2. destruct op; try (apply (sp_power true); [apply (raise l1); [exact D1|exact A]|exact W1|exact W2|apply (raise l2); [exact D2|exact B] ]; fail);
    (apply sp_binary; [cbn; tauto|apply (raise l1); [exact D1|exact A]|exact W1|exact W2|apply (raise l2); [exact D2|exact B] ]).
Qed.
Theorem C106_precedence : forall o1 o2 a ta b tb c tc w0 w1 w2 w3 w4, spelled true Atom a ta -> spelled true Atom b tb -> spelled true Atom c tc -> space w0 -> blank w1 -> blank w2 -> blank w3 -> blank w4 ->
  parse (name_of "@print" ++ w0 ++ ta ++ w1 ++ name_of (symbol o1) ++ w2 ++ tb ++ w3 ++ name_of (symbol o2) ++ w4 ++ tc) = Done [IStatement (SDirective DPrint (Some (grouped o1 o2 a b c)))].
Proof.
  intros o1 o2 a ta b tb c tc w0 w1 w2 w3 w4 A B C W0 W1 W2 W3 W4. apply parse_complete, ft_last.
  assert (S : spelled true Logical (grouped o1 o2 a b c) (ta ++ w1 ++ name_of (symbol o1) ++ w2 ++ tb ++ w3 ++ name_of (symbol o2) ++ w4 ++ tc)).
  { assert (L : (strength o1 <? strength o2)%nat || ((strength o1 =? 6)%nat && (strength o2 =? 6)%nat) = true -> spelled true Logical (EBinary o1 a (EBinary o2 b c)) (ta ++ w1 ++ name_of (symbol o1) ++ w2 ++ tb ++ w3 ++ name_of (symbol o2) ++ w4 ++ tc)).
    { intro H. apply (raise (level_of o1)); [cbn; lia|]. apply (binary_spelled o1 Atom (level_of o2)); [exact A|apply (binary_spelled o2 Atom Atom); try assumption; destruct o2; cbn; lia|exact W1|exact W2|destruct o1; cbn; lia|]. destruct o1, o2; cbn in *; try discriminate H; lia. }
    assert (R : (strength o1 <? strength o2)%nat || ((strength o1 =? 6)%nat && (strength o2 =? 6)%nat) = false -> spelled true Logical (EBinary o2 (EBinary o1 a b) c) (ta ++ w1 ++ name_of (symbol o1) ++ w2 ++ tb ++ w3 ++ name_of (symbol o2) ++ w4 ++ tc)).
    { intro H. replace (ta ++ w1 ++ name_of (symbol o1) ++ w2 ++ tb ++ w3 ++ name_of (symbol o2) ++ w4 ++ tc) with ((ta ++ w1 ++ name_of (symbol o1) ++ w2 ++ tb) ++ w3 ++ name_of (symbol o2) ++ w4 ++ tc) by (rewrite <- !app_assoc; reflexivity).
      apply (raise (level_of o2)); [cbn; lia|]. apply (binary_spelled o2 (level_of o1) Atom); [apply (binary_spelled o1 Atom Atom); try assumption; destruct o1; cbn; lia|exact C|exact W3|exact W4| |destruct o2; cbn; lia]. destruct o1, o2; cbn in *; try discriminate H; lia. }
    unfold grouped. destruct (_ || _)%bool; [apply L|apply R]; reflexivity. }
  replace (name_of "@print" ++ w0 ++ ta ++ w1 ++ name_of (symbol o1) ++ w2 ++ tb ++ w3 ++ name_of (symbol o2) ++ w4 ++ tc) with ((name_of "@" ++ name_of "print" ++ w0 ++ (ta ++ w1 ++ name_of (symbol o1) ++ w2 ++ tb ++ w3 ++ name_of (symbol o2) ++ w4 ++ tc)) ++ [] ++ []) by (rewrite !app_nil_r; reflexivity).
  apply (lt_line true [_] _ [] [] []); [|exact blank_none|constructor]. apply sp_statement, st_directive_of; [left; exists "print"%string; split; [cbn; tauto|reflexivity]|word|exact W0|exact S].
Qed.
Print Assumptions C106_precedence.
Example C106_witness : spelled true Atom (ENumber seven) (name_of "7") /\ space [32] /\ blank [] /\
  grouped Subtract Add (ENumber seven) (ENumber seven) (ENumber seven) = EBinary Add (EBinary Subtract (ENumber seven) (ENumber seven)) (ENumber seven) /\
  grouped Add Multiply (ENumber seven) (ENumber seven) (ENumber seven) = EBinary Add (ENumber seven) (EBinary Multiply (ENumber seven) (ENumber seven)) /\
  grouped Exponent Exponent (ENumber seven) (ENumber seven) (ENumber seven) = EBinary Exponent (ENumber seven) (EBinary Exponent (ENumber seven) (ENumber seven)).
Proof. split; [exact seven_text|]. split; [exact space_one|]. split; [exact blank_none|]. repeat split. Qed.

(** * C107: blank lines, comments, blanks at the end of lines and the kind of line ends do not matter *)
Lemma statements_app a b : statements (a ++ b) = statements a ++ statements b.
Proof. apply flat_map_app. Qed.
Lemma remark_part c : remark c -> exists i, comment_part i c /\ statements i = [].
Proof. intros [->|(t & -> & A & B)]; [exists []; split; [constructor|reflexivity]|]. exists [IComment t]. split; [constructor; assumption|reflexivity]. Qed.
Theorem C107_layout : forall sts xs t, Forall2 (statement_text true) sts xs -> laid_out xs t -> exists is, parse t = Done is /\ statements is = sts.
Proof.
  intros sts xs t F L. assert (H : exists is, file_text true is t /\ statements is = sts).
  { revert sts F. induction L as [w c W C|x w c W C|w c eol xs t W C E L IH|x w c eol xs t W C E L IH]; intros sts F; destruct (remark_part c C) as (i & I1 & I2).
    - inversion F; subst. exists i. split; [|exact I2]. apply ft_last, (lt_line true [] [] w i c); [constructor|exact W|exact I1].
    - inversion F as [|st ? ? ? S F']; subst. inversion F'; subst. exists ([IStatement st] ++ i). split; [|rewrite statements_app, I2; reflexivity]. apply ft_last, (lt_line true [_] x w i c); [constructor; exact S|exact W|exact I1].
    - destruct (IH sts F) as (is & J1 & J2). exists (i ++ is). split; [|rewrite statements_app, I2, J2; reflexivity]. rewrite (app_assoc w c). apply ft_line; [apply (lt_line true [] [] w i c); [constructor|exact W|exact I1]|destruct E as [->| ->]; cbn; auto|exact J1].
    - inversion F as [|st ? ss ? S F']; subst. destruct (IH _ F') as (is & J1 & J2). exists (([IStatement st] ++ i) ++ is). split; [|rewrite !statements_app, I2, J2; reflexivity]. replace (x ++ w ++ c ++ eol ++ t) with ((x ++ w ++ c) ++ eol ++ t) by (rewrite <- !app_assoc; reflexivity).
      apply ft_line; [apply (lt_line true [_] x w i c); [constructor; exact S|exact W|exact I1]|destruct E as [->| ->]; cbn; auto|exact J1]. }
  destruct H as (is & H1 & H2). exists is. split; [apply parse_complete, H1|exact H2].
Qed.
Print Assumptions C107_layout.
Example C107_witness : Forall2 (statement_text true) [SMarker; SPadding 8] [name_of "---"; name_of "void8"] /\
  laid_out [name_of "---"; name_of "void8"] (name_of "# one" ++ [10] ++ name_of "---  # two" ++ [13; 10] ++ [9; 10] ++ name_of "void8" ++ [10]).
Proof.
  split; [constructor; [apply (st_marker true []); constructor|]; constructor; [apply (st_padding true _ 8 width_8)|constructor]|].
  apply (lo_empty [] (name_of "# one") [10]); [exact blank_none|right; exists (name_of " one"); split; [reflexivity|vm_compute; lia]|left; reflexivity|]. apply (lo_line (name_of "---") [32; 32] (name_of "# two") [13; 10]); [repeat constructor|right; exists (name_of " two"); split; [reflexivity|vm_compute; lia]|right; reflexivity|].
  apply (lo_empty [9] [] [10]); [constructor; [right; reflexivity|constructor]|left; reflexivity|left; reflexivity|]. apply (lo_line (name_of "void8") [] [] [10] [] []); [constructor|left; reflexivity|left; reflexivity|]. apply (lo_end [] []); [constructor|left; reflexivity].
Qed.

(** * C108: a constant can be referred to by its name, unless the name starts with the name of a type or a truth value *)
Definition declare (name : text) : text := name_of "uint8 " ++ name ++ name_of " = 7".
Definition use (name : text) : text := name_of "@print " ++ name.
Lemma declared name : identifier name -> file_text true [IStatement (SConstant (PUInt 8) name (ENumber seven))] (declare name).
Proof.
  intro I. apply ft_last. replace (declare name) with ((name_of "uint8" ++ [32] ++ name ++ [32] ++ name_of "=" ++ [32] ++ name_of "7") ++ [] ++ []) by (rewrite !app_nil_r; reflexivity).
  apply (lt_line true [_] _ [] [] []); [|exact blank_none|constructor]. apply sp_statement, st_constant; [apply (pn_uint [] false (name_of "8") 8 cw_default width_8)|exact space_one|exact I|exact blank_one|exact blank_one|apply (raise Atom); [cbn; lia|exact seven_text] ].
Qed.
Theorem C108_declared : forall name, identifier name -> parse (declare name) = Done [IStatement (SConstant (PUInt 8) name (ENumber seven))].
Proof. intros name I. apply parse_complete, declared, I. Qed.
Print Assumptions C108_declared.
Theorem C108_names_partial : forall name, identifier name -> ~ starts_like_a_keyword name -> parse (use name) = Done [IStatement (SDirective DPrint (Some (EIdentifier name)))].
Proof.
  intros name I K. apply parse_complete, ft_last. replace (use name) with ((name_of "@" ++ name_of "print" ++ [32] ++ name) ++ [] ++ []) by (rewrite !app_nil_r; reflexivity). apply (lt_line true [_] _ [] [] []); [|exact blank_none|constructor].
  apply sp_statement, st_directive_of; [left; exists "print"%string; split; [cbn; tauto|reflexivity]|word|exact space_one|]. apply (raise Atom); [cbn; lia|]. apply sp_name; [exact I|intros _; exact K].
Qed.
Print Assumptions C108_names_partial.
Example C108_witness : identifier (name_of "LIMIT") /\ ~ starts_like_a_keyword (name_of "LIMIT").
Proof. split; [word|exact limit_name]. Qed.
(** boolean_count, and true_north, cannot be used *)
Theorem C108_refuted : exists name, identifier name /\ ~ reserved name /\ parse (declare name) = Done [IStatement (SConstant (PUInt 8) name (ENumber seven))] /\ parse (use name) = Fail.
Proof. exists (name_of "boolean_count"). split; [word|]. split; [rewrite <- reserved_right; vm_compute; discriminate|]. split; [apply C108_declared; word|]. vm_compute. reflexivity. Qed.
Print Assumptions C108_refuted.
