(** Proofs about parsing: statements and files are read as what they are written for. *)
From Coq Require Import QArith Qcanon String.
From Verif Require Import Base GenModel ExprModel TextModel TextSpec TextProofs PkgModel PkgSpec CompModel ExprProofs ParseModel ParseSpec PegProofs ParseWordProofs ParseSoundProofs ParseStartProofs ParseLiteralProofs ParseCompleteProofs.
Open Scope list_scope.
Open Scope N_scope.
Ltac Zify.zify_post_hook ::= Z.div_mod_to_equations.

(** * What only consists of word characters *)
Definition wordc (c : N) : bool := ((65 <=? c) && (c <=? 90)) || ((97 <=? c) && (c <=? 122)) || ((48 <=? c) && (c <=? 57)) || (c =? 95).
Lemma wordc_right c : wordc c = true -> word_char c.
Proof. unfold wordc, word_char, PkgSpec.is_letter, PkgSpec.is_digit. lia. Qed.
Fixpoint wordy (n : nat) (p : peg) : bool :=
  let fix go (p : peg) : bool :=
    match p with
    | PStr t => forallb wordc t
    | PRange lo hi => (48 <=? lo) && (hi <=? 57)
    | PAny => false
    | PEnd => true
    | PSeq a b | PAlt a b => go a && go b
    | PStar a | POpt a => go a
    | PNot _ => true
    | PRef r => match n with O => false | S m => wordy m (grammar r) end
    end in go p.
Lemma wordy_right f : forall n p s ts rest, wordy n p = true -> run f p s = Match ts rest -> exists t, s = t ++ rest /\ Forall word_char t.
Proof.
  induction f as [|f IH]; intros n p s ts rest W H; [discriminate H|]. cbn [run] in H.
  assert (SEQ : forall a b us x vs, wordy n a = true -> wordy n b = true -> run f a s = Match us x -> run f b x = Match vs rest -> exists t, s = t ++ rest /\ Forall word_char t).
  { intros a b us x vs WA WB A B. destruct (IH n a s us x WA A) as (t1 & -> & F1). destruct (IH n b x vs rest WB B) as (t2 & -> & F2). exists (t1 ++ t2). split; [apply app_assoc|apply Forall_app; split; assumption]. }
  destruct p as [t|lo hi| | |a b|a b|a|a|a|r].
  - destruct (strip t s) as [x|] eqn:E; [|discriminate H]. injection H as _ <-. exists t. split; [apply strip_right, E|]. assert (F : forallb wordc t = true) by (destruct n; exact W). apply Forall_forall. intros c I. apply wordc_right. rewrite forallb_forall in F. apply F, I.
  - destruct s as [|c s]; [discriminate H|]. destruct ((lo <=? c) && (c <=? hi)) eqn:E; [|discriminate H]. injection H as _ <-. exists [c]. split; [reflexivity|]. assert (F : (48 <=? lo) && (hi <=? 57) = true) by (destruct n; exact W). constructor; [unfold word_char, PkgSpec.is_digit; lia|constructor].
  - destruct n; discriminate W.
  - destruct s; [|discriminate H]. injection H as _ <-. exists []. split; [reflexivity|constructor].
  - assert (WW : wordy n a && wordy n b = true) by (destruct n; exact W). apply andb_true_iff in WW as (WA & WB). destruct (run f a s) as [us x| |] eqn:A; try discriminate H. destruct (run f b x) as [vs y| |] eqn:B; try discriminate H. injection H as _ <-. apply (SEQ a b us x vs); assumption.
  - assert (WW : wordy n a && wordy n b = true) by (destruct n; exact W). apply andb_true_iff in WW as (WA & WB). destruct (run f a s) as [us x| |] eqn:A; try discriminate H; [injection H as <- <-; apply (IH n a s us x WA A)|apply (IH n b s ts rest WB H)].
  - assert (WA : wordy n a = true) by (destruct n; exact W). destruct (run f a s) as [us x| |] eqn:A; try discriminate H; [|injection H as _ <-; exists []; split; [reflexivity|constructor] ]. destruct (run f (PStar a) x) as [vs y| |] eqn:B; try discriminate H. injection H as _ <-. apply (SEQ a (PStar a) us x vs); assumption.
  - assert (WA : wordy n a = true) by (destruct n; exact W). destruct (run f a s) as [us x| |] eqn:A; try discriminate H; injection H as <- <-; [apply (IH n a s us x WA A)|exists []; split; [reflexivity|constructor] ].
  - destruct (run f a s); try discriminate H. injection H as _ <-. exists []. split; [reflexivity|constructor].
  - destruct (run f (grammar r) s) as [us x| |] eqn:A; try discriminate H. injection H as _ <-. destruct n as [|n]; [discriminate W|]. apply (IH n (grammar r) s us x); [exact W|exact A].
Qed.
Lemma words_before : forall n t x s, Forall word_char n -> Forall word_char t -> n ++ 46 :: s = t ++ x -> exists r, x = r ++ 46 :: s /\ Forall word_char r.
Proof.
  induction n as [|c n IH]; intros t x s N T E.
  - destruct t as [|d t]; [exists []; split; [symmetry; exact E|constructor]|]. cbn [app] in E. injection E as <- _. inversion T as [|? ? C ?]; subst. unfold word_char, PkgSpec.is_letter, PkgSpec.is_digit in C. lia.
  - destruct t as [|d t]; [exists (c :: n); split; [symmetry; exact E|exact N]|]. cbn [app] in E. injection E as <- E. inversion N; inversion T; subst. apply (IH t x s); assumption.
Qed.
Lemma blank_word c r s : Forall word_char r -> ev (PRef ws) (r ++ 46 :: s) c -> c = NoMatch.
Proof. intros F O. apply (ev_same _ _ _ _ O). apply ev_no_ws. destruct r as [|d r]; [cbn; lia|]. inversion F as [|? ? D ?]; subst. cbn. unfold word_char, PkgSpec.is_letter, PkgSpec.is_digit in D. lia. Qed.
(** The name of a type is not a primitive type and blanks *)
Lemma name_no_primitive_ws n s p : Forall word_char n -> ev (type_primitive ~~ ws ~~ p)%peg (n ++ 46 :: s) NoMatch.
Proof.
  intro N. assert (LEAVES : forall (r : rule), wordy 4 (PRef r) = true -> forall ts x, ev (PRef r) (n ++ 46 :: s) (Match ts x) -> exists u, x = u ++ 46 :: s /\ Forall word_char u).
  { intros r W ts x (_ & f & R). destruct (wordy_right f 4 (PRef r) _ _ _ W R) as (t & E & F). apply (words_before n t x s N F E). }
  assert (MODE : forall k, Forall word_char (name_of k) -> ev (lit k ~~ ws)%peg (n ++ 46 :: s) NoMatch).
  { intros k K. destruct (strip (name_of k) (n ++ 46 :: s)) as [x|] eqn:E; [|apply ev_seq_no, ev_str_no, E]. apply strip_right in E. destruct (words_before n (name_of k) x s N K E) as (u & -> & U). rewrite E. eapply ev_seq_no2; [apply ev_lit|]. destruct (ev_total ws (u ++ 46 :: s)) as (o & O). pose proof (blank_word _ _ _ U O). subst o. exact O. }
  destruct (ev_total type_primitive (n ++ 46 :: s)) as ([ts x| |] & O); [|apply ev_seq_no, O|destruct O; congruence]. eapply ev_seq_no2; [exact O|]. apply ev_seq_no.
  assert (U : exists u, x = u ++ 46 :: s /\ Forall word_char u).
  { apply ev_ref_inv in O as (t & us & _ & O & _). cbn [grammar] in O. apply ev_alt_inv in O as [O|(_ & O)].
    { exfalso. apply ev_ref_inv in O as (? & ? & _ & O & _). cbn [grammar] in O. apply ev_seq_inv in O as (u1 & m1 & v1 & O1 & O2 & _). apply ev_seq_inv in O2 as (u2 & m2 & v2 & O2 & _ & _). pose proof (ev_same _ _ _ _ (MODE "truncated"%string ltac:(words)) (ev_seq _ _ _ _ _ _ _ O1 O2)) as E. discriminate E. }
    apply ev_alt_inv in O as [O|(_ & O)].
    { apply ev_ref_inv in O as (? & ? & _ & O & _). cbn [grammar] in O. apply ev_seq_inv in O as (u1 & m1 & v1 & O1 & O2 & _). apply ev_opt_inv in O1 as [O1|(_ & -> & _)]; [pose proof (ev_same _ _ _ _ (MODE "saturated"%string ltac:(words)) O1) as E; discriminate E|]. apply (LEAVES type_primitive_name eq_refl _ _ O2). }
    apply ev_alt_inv in O as [O|(_ & O)]; [apply (LEAVES type_primitive_bool eq_refl _ _ O)|]. apply ev_alt_inv in O as [O|(_ & O)]; [apply (LEAVES type_primitive_name_utf8 eq_refl _ _ O)|apply (LEAVES type_primitive_name_byte eq_refl _ _ O)]. }
  destruct U as (u & -> & U). destruct (ev_total ws (u ++ 46 :: s)) as (o & W). pose proof (blank_word _ _ _ U W). subst o. exact W.
Qed.

(** * Statements *)

(** What follows a statement *)
Definition line_end (s : text) : Prop := exists w r, s = w ++ r /\ blank w /\ match r with [] => True | c :: _ => In c [35; 13; 10] end.
Lemma line_end_follow s : line_end s -> follow Logical s.
Proof. intros (w & r & -> & W & R). exists w, r. split; [reflexivity|]. split; [exact W|]. destruct r as [|c r]; [apply en_end|apply en_closed; cbn in *; lia]. Qed.
Lemma line_end_word s : line_end s -> behind_word s.
Proof. intro L. apply (follow_word Logical), line_end_follow, L. Qed.
Lemma line_end_glue s : line_end s -> no_glue s.
Proof. intro L. apply behind_glue, line_end_word, L. Qed.
Lemma line_end_version s : line_end s -> no_version s.
Proof. intro L. apply no_point_version, (follow_version Logical); [apply line_end_follow, L|discriminate]. Qed.
(** Nothing more on the line *)
Lemma ev_no_more_words s p : line_end s -> well_founded ranks p = true -> empty p = false -> can 40 p 35 || can 40 p 13 || can 40 p 10 = false -> ev (ws ~~ p)%peg s NoMatch.
Proof.
  intros (w & r & -> & W & R) WF E C. assert (NB : no_blank r) by (destruct r as [|c r]; [exact I|]; cbn in *; lia). destruct w as [|c w].
  - apply ev_seq_no, ev_no_ws, NB.
  - eapply ev_seq_no2; [apply ev_ws; [split; [exact W|discriminate]|exact NB]|]. apply orb_false_iff in C as (C & C3). apply orb_false_iff in C as (C1 & C2). destruct r as [|d r]; [apply no_end; rewrite WF, E; reflexivity|]. apply no_start. unfold never. rewrite WF, E. cbn [negb andb]. cbn in R. destruct R as [<-|[<-|[<-|[] ] ] ]; [rewrite C1|rewrite C2|rewrite C3]; reflexivity.
Qed.
Lemma directive_of_complete d name : directive_name d name -> directive_of name = d.
Proof.
  intros [(s & I & ->)|(-> & N)].
  - cbn in I. repeat (destruct I as [I|I]; [injection I as <- <-; vm_compute; reflexivity|]). destruct I.
  - unfold directive_of. repeat match goal with |- (if text_eqb name ?x then _ else _) = _ => let E := fresh in destruct (text_eqb name x) eqn:E; [apply text_eqb_eq in E; exfalso; subst name; eapply N; [|reflexivity]; cbn; tauto|] end. reflexivity.
Qed.
Lemma check_field_complete t : field_type t -> check_field_type t = true.
Proof. intros (A & B & C). destruct t as [sc|sc k n]; [destruct sc as [x|x|x]; try (destruct x; fail); try match goal with x : prim |- _ => destruct x end; try reflexivity; (destruct A; reflexivity) || (destruct B; reflexivity)|destruct sc as [x|x|x], k; try match goal with x : prim |- _ => destruct x end; try reflexivity; destruct (C n); reflexivity]. Qed.
Lemma ev_expression_all e t s : spelled true Logical e t -> follow Logical s -> exists k, ev (PRef expression) (t ++ s) (Match [k] s) /\ parse_expression k = Done e.
Proof. intros S F. apply (ev_expression (20 * length t + 11) e t s); [apply reads_all|lia|exact S|exact F]. Qed.
(** A constant is not declared *)
Lemma ev_no_constant_scalar sc t x p : scalar_name sc t -> no_glue x -> ev (ws ~~ p)%peg x NoMatch -> ev (type_primitive ~~ ws ~~ p)%peg (t ++ x) NoMatch.
Proof.
  intros S G N. destruct S as [q t P|t n W|path name t1 n1 t2 n2 F V1 V2].
  - destruct (ev_primitive q t x P G) as (cs & R & _). eapply ev_seq_no2; [exact R|exact N].
  - apply ev_seq_no, no_start. reflexivity.
  - destruct (path ++ [name]) as [|m ms] eqn:E; [destruct path; discriminate E|]. inversion F as [|? ? I F']; subst. rewrite dotted_flat, <- !app_assoc. assert (Y : exists y, flat_map (fun n => 46 :: n) ms ++ [46] ++ t1 ++ [46] ++ t2 ++ x = 46 :: y) by (destruct ms; eexists; reflexivity). destruct Y as (y & ->). apply name_no_primitive_ws, identifier_words, I.
Qed.
Lemma letter_first t s (p : peg) : (exists c r, t = c :: r /\ (PkgSpec.is_letter c \/ c = 95)) -> forallb (never p) letters = true -> ev p (t ++ s) NoMatch.
Proof. intros (c & r & -> & C) F. cbn [app]. apply (no_start_in _ letters); [exact F|apply letters_all, C]. Qed.
Lemma ev_statement st t s : statement_text true st t -> line_end s -> exists k, ev (PRef statement_) (t ++ s) (Match [k] s) /\ parse_statement k = Done (Some (IStatement st)).
Proof.
  intros H L. pose proof (line_end_follow s L) as FO. pose proof (line_end_glue s L) as G. pose proof (line_end_version s L) as V.
  assert (ATTR : forall t k, (exists c r, t = c :: r /\ (PkgSpec.is_letter c \/ c = 95)) -> ev (PRef statement_attribute) (t ++ s) (Match [k] s) -> ev (PRef statement_) (t ++ s) (Match [k] s)).
  { intros t' k F R. apply ev_silent; [reflexivity|]. cbn [grammar]. apply ev_alt_r; [apply letter_first; [exact F|lazy; reflexivity]|]. apply ev_alt_r; [apply letter_first; [exact F|lazy; reflexivity]|exact R]. }
  destruct H as [d name D I|d name w e t D I W S|more M|p tp w1 name w2 w3 e t P W1 I W2 W3 S|ty t w name T FT W I|t n W].
  - exists (Node statement_directive (name_of "@" ++ name) [Node statement_directive_without_expression (name_of "@" ++ name) [Node identifier_ name []]]). split; [|cbn [parse_statement]; rewrite (directive_of_complete d name D); reflexivity].
    apply ev_silent; [reflexivity|]. cbn [grammar]. apply ev_alt_l. apply ev_ref; [reflexivity|]. cbn [grammar]. pose proof (ev_identifier name s I G) as R. apply ev_alt_r.
    + apply ev_ref_no. cbn [grammar]. rewrite <- app_assoc. eapply ev_seq_no2; [apply ev_lit|]. eapply ev_seq_no2; [exact R|]. apply ev_no_more_words; [exact L|reflexivity|reflexivity|lazy; reflexivity].
    + apply ev_ref; [reflexivity|]. cbn [grammar]. rewrite <- app_assoc. apply (ev_seq _ _ _ [] (name ++ s) [Node identifier_ name []] s); [apply ev_lit|exact R].
  - destruct (ev_expression_all e t s S FO) as (k & K1 & K2). set (x := name_of "@" ++ name ++ w ++ t). exists (Node statement_directive x [Node statement_directive_with_expression x [Node identifier_ name []; k]]). split; [|cbn [parse_statement]; rewrite K2, (directive_of_complete d name D); reflexivity].
    apply ev_silent; [reflexivity|]. cbn [grammar]. apply ev_alt_l. apply ev_ref; [reflexivity|]. cbn [grammar]. apply ev_alt_l. apply ev_ref; [reflexivity|]. cbn [grammar]. unfold x. rewrite <- !app_assoc. apply (ev_seq _ _ _ [] (name ++ w ++ t ++ s) [Node identifier_ name []; k] s); [apply ev_lit|].
    apply (ev_seq _ _ _ [Node identifier_ name []] (w ++ t ++ s) [k] s); [apply ev_identifier; [exact I|apply space_glue, W]|]. apply (ev_seq _ _ _ [] (t ++ s) [k] s); [apply ev_ws; [exact W|apply (spelled_blank Logical e), S]|exact K1].
  - exists (Node statement_service_response_marker (name_of "---" ++ more) []). split; [|reflexivity]. apply ev_silent; [reflexivity|]. cbn [grammar]. apply ev_alt_r; [apply no_start; reflexivity|]. apply ev_alt_l. apply ev_ref; [reflexivity|]. cbn [grammar]. rewrite <- app_assoc. apply (ev_seq _ _ _ [] (more ++ s) [] s); [apply ev_lit|].
    assert (N : hd_not [45] s) by (destruct L as (w & r & -> & W & R); apply blank_hd; [exact W|cbn; lia|cbn; lia|]; destruct r; [exact Logic.I|cbn in *; lia]). clear - M N. induction M as [|c more C M IH]; [apply ev_star_end, ev_str_no, strip_hd, N|]. subst c. cbn [app]. apply (ev_star _ _ [] (more ++ s) [] s); [apply (ev_lit "-")|exact IH].
  - destruct (ev_expression_all e t s S FO) as (k & K1 & K2). destruct (ev_primitive p tp (w1 ++ name ++ w2 ++ name_of "=" ++ w3 ++ t ++ s) P (space_glue _ _ W1)) as (cs & C1 & C2). set (x := tp ++ w1 ++ name ++ w2 ++ name_of "=" ++ w3 ++ t).
    exists (Node statement_constant x [Node type_primitive tp cs; Node identifier_ name []; k]). split; [|cbn [parse_statement]; rewrite C2; cbn [obind]; rewrite K2; reflexivity]. apply ATTR.
    { destruct (scalar_start _ _ (sn_primitive p tp P)) as (c & r & -> & C). exists c. eexists. split; [reflexivity|exact C]. }
    apply ev_silent; [reflexivity|]. cbn [grammar]. apply ev_alt_l. apply ev_ref; [reflexivity|]. cbn [grammar]. unfold x. rewrite <- !app_assoc. apply (ev_seq _ _ _ [Node type_primitive tp cs] (w1 ++ name ++ w2 ++ name_of "=" ++ w3 ++ t ++ s) [Node identifier_ name []; k] s); [exact C1|].
    apply (ev_seq _ _ _ [] (name ++ w2 ++ name_of "=" ++ w3 ++ t ++ s) [Node identifier_ name []; k] s); [apply ev_ws; [exact W1|]|]. { destruct (identifier_start _ I) as (c & r & -> & C). cbn. unfold PkgSpec.is_letter in C. lia. }
    apply (ev_seq _ _ _ [Node identifier_ name []] (w2 ++ name_of "=" ++ w3 ++ t ++ s) [k] s); [apply ev_identifier; [exact I|apply blank_glue; [exact W2|cbn; unfold word_char, PkgSpec.is_letter, PkgSpec.is_digit; lia] ]|].
    apply (ev_seq _ _ _ [] (name_of "=" ++ w3 ++ t ++ s) [k] s); [apply ev_ws_opt; [exact W2|cbn; lia]|]. apply (ev_seq _ _ _ [] (w3 ++ t ++ s) [k] s); [apply ev_lit|]. apply (ev_seq _ _ _ [] (t ++ s) [k] s); [apply ev_ws_opt; [exact W3|apply (spelled_blank Logical e), S]|exact K1].
  - assert (NB : forall u, no_blank (name ++ u)) by (intro u; destruct (identifier_start _ I) as (c & r & -> & C); cbn; unfold PkgSpec.is_letter in C; lia).
    assert (F : exists c r, t = c :: r /\ (PkgSpec.is_letter c \/ c = 95)) by (destruct T as [sc t S|sc k n t A]; [apply (scalar_start _ _ S)|apply (array_start _ _ _ _ A)]).
    assert (NE : forall p, ev (ws ~~ identifier_ ~~ ws_opt ~~ lit "=" ~~ p)%peg (w ++ name ++ s) NoMatch).
    { intro p. eapply ev_seq_no2; [apply ev_ws; [exact W|apply NB]|]. eapply ev_seq_no2; [apply ev_identifier; [exact I|exact G]|]. destruct L as (v & r & -> & B & R). eapply ev_seq_no2; [apply ev_ws_opt; [exact B|destruct r as [|c r]; [exact Logic.I|cbn in *; lia] ]|]. apply ev_seq_no, ev_str_no, strip_hd. destruct r; [exact Logic.I|cbn in *; lia]. }
    assert (NC : ev (PRef statement_constant) (t ++ w ++ name ++ s) NoMatch).
    { apply ev_ref_no. cbn [grammar]. destruct T as [sc t S|sc k n t A].
      - apply (ev_no_constant_scalar sc); [exact S|apply space_glue, W|apply NE].
      - destruct A as [sc t v1 v2 k o v3 n tn v4 S V1 V2 K V3 N V4]. rewrite <- !app_assoc. apply (ev_no_constant_scalar sc); [exact S|apply blank_glue; [exact V1|cbn; unfold word_char, PkgSpec.is_letter, PkgSpec.is_digit; lia]|].
        destruct v1 as [|c v1]; [apply ev_seq_no, ev_no_ws; cbn; lia|]. eapply ev_seq_no2; [apply ev_ws; [split; [exact V1|discriminate]|cbn; lia]|]. apply ev_seq_no. apply (ev_no_identifier 91). unfold PkgSpec.is_letter; lia. }
    assert (D : exists cs, ev (PRef dtype_) (t ++ w ++ name ++ s) (Match [Node dtype_ t cs] (w ++ name ++ s)) /\ parse_data_type parse_expression cs = Done ty).
    { destruct T as [sc t S|sc k n t A].
      - destruct (ev_dtype_scalar sc t (w ++ name ++ s) S (space_glue _ _ W)) as (cs & C1 & C2).
        + apply no_point_version, space_hd; [exact W|cbn; lia].
        + exists w, (name ++ s). split; [reflexivity|]. split; [apply W|]. split; [apply NB|]. destruct (identifier_start _ I) as (c & r & -> & C). cbn. unfold PkgSpec.is_letter in C. lia.
        + eexists. split; [exact C1|]. cbn [parse_data_type]. rewrite C2. reflexivity.
      - destruct (ev_array (20 * length t + 1) sc k n t (w ++ name ++ s) (reads_all _) A ltac:(lia)) as (r & cs & C1 & C2). eexists. split; [apply ev_ref; [reflexivity|]; cbn [grammar]; apply ev_alt_l, C1|exact C2]. }
    destruct D as (cs & D1 & D2). exists (Node statement_field (t ++ w ++ name) [Node dtype_ t cs; Node identifier_ name []]). split; [|cbn [parse_statement]; rewrite D2; cbn [obind]; rewrite (check_field_complete ty FT); reflexivity].
    apply ATTR. { destruct F as (c & r & -> & C). exists c. eexists. split; [reflexivity|exact C]. }
    apply ev_silent; [reflexivity|]. cbn [grammar]. apply ev_alt_r; [rewrite <- !app_assoc; exact NC|]. apply ev_alt_l. apply ev_ref; [reflexivity|]. cbn [grammar]. rewrite <- !app_assoc. apply (ev_seq _ _ _ [Node dtype_ t cs] (w ++ name ++ s) [Node identifier_ name []] s); [exact D1|].
    apply (ev_seq _ _ _ [] (name ++ s) [Node identifier_ name []] s); [apply ev_ws; [exact W|apply NB]|apply ev_identifier; [exact I|exact G] ].
  - destruct (ev_suffix_peg t n s W G) as (R & E1 & E2). exists (Node statement_padding_field (name_of "void" ++ t) [Node type_void (name_of "void" ++ t) [Node type_bit_length_suffix t []]]). split; [|cbn [parse_statement]; rewrite E1; cbn [obind]; rewrite E2; reflexivity].
    apply ATTR. { eexists. eexists. split; [reflexivity|]. left. unfold PkgSpec.is_letter. cbn. lia. }
    apply ev_silent; [reflexivity|]. cbn [grammar]. apply ev_alt_r; [apply no_start; reflexivity|]. apply ev_alt_r.
    + apply ev_ref_no. cbn [grammar]. destruct (ev_dtype_scalar (Void n) (name_of "void" ++ t) s (sn_void t n W) G V (behind_bracket s (line_end_word s L))) as (cs & C1 & _). eapply ev_seq_no2; [exact C1|]. apply ev_no_more_words; [exact L|reflexivity|reflexivity|lazy; reflexivity].
    + apply ev_ref; [reflexivity|]. cbn [grammar]. apply (ev_seq _ _ _ [Node type_void (name_of "void" ++ t) [Node type_bit_length_suffix t []]] s [] s); [|apply (ev_lit "")]. apply ev_ref; [reflexivity|]. cbn [grammar]. rewrite <- app_assoc. apply (ev_seq _ _ _ [] (t ++ s) [Node type_bit_length_suffix t []] s); [apply ev_lit|exact R].
Qed.

(** * Lines and files *)
Definition after_line (x : text) : Prop := match x with [] => True | c :: _ => In c [13; 10] end.
Lemma ev_content t x : ~ In 13 t -> ~ In 10 t -> after_line x -> ev (PRef comment_content) (t ++ x) (Match [Node comment_content t []] x).
Proof.
  intros A B X. apply ev_ref; [reflexivity|]. cbn [grammar]. induction t as [|c t IH].
  - cbn [app]. apply ev_star_end. destruct x as [|c x]; [eapply ev_seq_no2; [apply ev_not, no_end; reflexivity|apply no_end; reflexivity]|]. apply ev_seq_no. destruct X as [<-|[<-|[] ] ]; [eapply ev_not_no, ev_alt_l, (ev_str [13])|eapply ev_not_no, ev_alt_r; [apply ev_str_no; reflexivity|apply (ev_str [10])] ].
  - cbn in A, B. cbn [app]. apply (ev_star _ _ [] (t ++ x) [] x); [|apply IH; tauto]. apply (ev_seq _ _ _ [] (c :: t ++ x) [] _); [|apply ev_any]. apply ev_not, ev_alt_r; apply ev_str_no, strip_hd; cbn; (intros [<-|[] ]); tauto.
Qed.
Definition parses (ks : list tree) (is : list item) : Prop := forall more eof, parse_to_ast (ks ++ more) eof = obind (parse_to_ast more eof) (fun js => Done (is ++ js)).
Lemma parses_nil : parses [] [].
Proof. intros more eof. cbn. destruct (parse_to_ast more eof); reflexivity. Qed.
Lemma parses_app k1 i1 k2 i2 : parses k1 i1 -> parses k2 i2 -> parses (k1 ++ k2) (i1 ++ i2).
Proof. intros A B more eof. rewrite <- app_assoc, A, B. destruct (parse_to_ast more eof); try reflexivity. cbn. rewrite app_assoc. reflexivity. Qed.
Lemma parses_one k i : parse_statement k = Done (Some i) -> parses [k] [i].
Proof. intros H more eof. cbn [app parse_to_ast]. rewrite H. reflexivity. Qed.
Lemma ev_line is t x : line_text true is t -> after_line x -> exists ks, ev (PRef line) (t ++ x) (Match ks x) /\ parses ks is.
Proof.
  intros H X. destruct H as [i1 t1 w i2 t2 S W C]. assert (CO : exists c2, ev (POpt (PRef comment)) (t2 ++ x) (Match c2 x) /\ parses c2 i2 /\ no_blank (t2 ++ x) /\ match t2 ++ x with [] => True | c :: _ => In c [35; 13; 10] end).
  { destruct C as [|t A B].
    - exists []. split; [|split; [apply parses_nil|] ]; cbn [app]; destruct x as [|c x]; try (apply ev_opt_no, no_end; reflexivity); try (cbn in *; split; [lia|lia]); try (split; exact Logic.I). apply ev_opt_no. destruct X as [<-|[<-|[] ] ]; apply no_start; reflexivity.
    - exists [Node comment_content t []]. split; [|split; [apply parses_one; reflexivity|] ]; [|cbn; lia]. apply ev_opt. apply ev_silent; [reflexivity|]. cbn [grammar]. rewrite <- app_assoc. apply (ev_seq _ _ _ [] (t ++ x) [Node comment_content t []] x); [apply ev_lit|apply ev_content; assumption]. }
  destruct CO as (c2 & C1 & C2 & NB & HD). assert (ST : exists c1, ev (POpt (PRef statement_)) (t1 ++ w ++ t2 ++ x) (Match c1 (w ++ t2 ++ x)) /\ parses c1 i1).
  { destruct S as [|st t S].
    - exists []. split; [|apply parses_nil]. apply ev_opt_no. cbn [app]. destruct w as [|c w]; cbn [app]; [destruct (t2 ++ x) as [|c y]; [apply no_end; reflexivity|]; cbn in HD; destruct HD as [<-|[<-|[<-|[] ] ] ]; apply no_start; lazy; reflexivity|]. inversion W as [|? ? B ?]; subst. destruct B as [->| ->]; apply no_start; lazy; reflexivity.
    - destruct (ev_statement st t (w ++ t2 ++ x) S) as (k & K1 & K2). { exists w, (t2 ++ x). split; [reflexivity|]. split; [exact W|exact HD]. }
      exists [k]. split; [apply ev_opt, K1|apply parses_one, K2]. }
  destruct ST as (c1 & S1 & S2). exists (c1 ++ c2). split; [|apply parses_app; assumption]. apply ev_silent; [reflexivity|]. cbn [grammar]. rewrite <- !app_assoc. eapply ev_seq; [exact S1|]. apply (ev_seq _ _ _ [] (t2 ++ x) c2 x); [apply ev_ws_opt; assumption|exact C1].
Qed.
Lemma ev_file is t : file_text true is t -> exists ks, ev (line ~~ (end_of_line ~~ line)^*)%peg t (Match ks []) /\ parses ks is.
Proof.
  induction 1 as [i t L|i1 t1 eol i2 t2 L E F (ks & I1 & I2)].
  - destruct (ev_line i t [] L Logic.I) as (ks & K1 & K2). exists (ks ++ []). split; [|rewrite app_nil_r; exact K2]. rewrite app_nil_r in K1. eapply ev_seq; [exact K1|]. apply ev_star_end, no_end. reflexivity.
  - destruct (ev_line i1 t1 (eol ++ t2) L) as (k1 & K1 & K2); [destruct E as [<-|[<-|[] ] ]; cbn; auto|]. apply ev_seq_inv in I1 as (us & mid & vs & J1 & J2 & ->). exists (k1 ++ us ++ vs). split; [|apply parses_app; assumption]. eapply ev_seq; [exact K1|]. eapply ev_star; [|exact J2].
    apply (ev_seq _ _ _ [] t2 us mid); [|exact J1]. apply ev_silent; [reflexivity|]. cbn [grammar]. destruct E as [<-|[<-|[] ] ].
    + apply (ev_seq _ _ _ [] (10 :: t2) [] t2); [apply ev_opt_no, ev_str_no; reflexivity|apply (ev_str [10])].
    + apply (ev_seq _ _ _ [] (10 :: t2) [] t2); [apply ev_opt, (ev_str [13])|apply (ev_str [10])].
Qed.
Lemma parse_complete is t : file_text true is t -> parse t = Done is.
Proof.
  intro F. destruct (ev_file is t F) as (ks & K & P). assert (D : ev (PRef definition) t (Match (ks ++ [Node EOI [] []]) [])).
  { rewrite <- (app_nil_r t). apply ev_silent; [reflexivity|]. rewrite app_nil_r. cbn [grammar]. apply ev_seq_inv in K as (us & mid & vs & J1 & J2 & ->). rewrite <- app_assoc. eapply ev_seq; [exact J1|]. eapply ev_seq; [exact J2|]. apply (ev_run 2); [reflexivity|discriminate]. }
  unfold parse. rewrite (ev_enough definition t _ D), P. cbn. rewrite app_nil_r. reflexivity.
Qed.
