(** Proofs about parsing: numbers, strings and names of types are read as what they are written for. *)
From Coq Require Import QArith Qcanon String.
From Verif Require Import Base GenModel ExprModel TextModel TextSpec TextProofs PkgModel PkgSpec CompModel ExprProofs ParseModel ParseSpec PegProofs ParseWordProofs ParseStartProofs.
Open Scope list_scope.
Open Scope N_scope.
Ltac Zify.zify_post_hook ::= Z.div_mod_to_equations.

(** * Numbers *)

(** The digits of a numeral behind the first one *)
Definition piece (b : N) (p : text) : Prop := exists c d, TextSpec.is_digit b c d /\ (p = [c] \/ p = [95; c]).
Lemma numeral_pieces b t ds : numeral b t ds -> exists c d ps, t = c :: concat ps /\ TextSpec.is_digit b c d /\ Forall (piece b) ps.
Proof.
  intro H. induction H as [c d D|t ds c d H (c0 & d0 & ps & -> & D0 & F) D|t ds c d H (c0 & d0 & ps & -> & D0 & F) D].
  - exists c, d, []. split; [reflexivity|]. split; [exact D|constructor].
  - exists c0, d0, (ps ++ [ [c] ]). split; [rewrite concat_app; reflexivity|]. split; [exact D0|]. apply Forall_app. split; [exact F|]. repeat constructor. exists c, d. auto.
  - exists c0, d0, (ps ++ [ [95; c] ]). split; [rewrite concat_app; reflexivity|]. split; [exact D0|]. apply Forall_app. split; [exact F|]. repeat constructor. exists c, d. auto.
Qed.
(** A parsing expression for a digit *)
Definition digit_peg (b : N) (p : peg) : Prop :=
  (forall c d s, TextSpec.is_digit b c d -> ev p (c :: s) (Match [] s)) /\ (forall c s, ~ word_char c \/ c = 95 -> ev p (c :: s) NoMatch) /\ ev p [] NoMatch.
Lemma digit_word b c d : TextSpec.is_digit b c d -> word_char c /\ c <> 95.
Proof. intros []; unfold word_char, PkgSpec.is_letter, PkgSpec.is_digit; lia. Qed.
Lemma ev_piece b p : digit_peg b p -> forall x s, piece b x -> ev ((lit "_")^? ~~ p)%peg (x ++ s) (Match [] s).
Proof.
  intros (P & Q & R) x s (c & d & D & [->| ->]).
  - apply (ev_seq _ _ _ [] ([c] ++ s) [] s); [|apply (P c d), D]. apply ev_opt_no, ev_str_no. change (name_of "_") with [95]. cbn [app strip]. destruct (N.eqb_spec 95 c); [|reflexivity]. apply digit_word in D as (_ & D). congruence.
  - apply (ev_seq _ _ _ [] ([c] ++ s) [] s); [|apply (P c d), D]. apply ev_opt. apply (ev_str (name_of "_")).
Qed.
Lemma ev_no_piece b p : digit_peg b p -> forall s, no_glue s -> ev ((lit "_")^? ~~ p)%peg s NoMatch.
Proof.
  intros (P & Q & R) s G. destruct s as [|c s].
  - eapply ev_seq_no2; [apply ev_opt_no, ev_str_no; reflexivity|exact R].
  - cbn [no_glue] in G. eapply ev_seq_no2; [apply ev_opt_no, ev_str_no|apply Q; left; exact G]. change (name_of "_") with [95]. cbn [strip]. destruct (N.eqb_spec 95 c) as [<-|]; [|reflexivity]. exfalso. apply G. unfold word_char. auto.
Qed.
Lemma ev_pieces b p : digit_peg b p -> forall ps s, Forall (piece b) ps -> no_glue s -> ev (PStar ((lit "_")^? ~~ p)%peg) (concat ps ++ s) (Match [] s).
Proof.
  intro P. induction ps as [|x ps IH]; intros s F G; [apply ev_star_end, (ev_no_piece b p P), G|]. inversion F; subst. cbn [concat]. rewrite <- app_assoc. apply (ev_star _ _ [] (concat ps ++ s) [] s); [apply (ev_piece b p P); assumption|apply IH; assumption].
Qed.
Lemma decimal_peg : digit_peg 10 digit09.
Proof.
  split; [|split].
  - intros c d s D. apply ev_range. destruct D; lia.
  - intros c s G. unfold digit09. apply ev_range_no. unfold word_char, PkgSpec.is_digit in G. lia.
  - apply no_end. reflexivity.
Qed.
Lemma binary_peg : digit_peg 2 (lit "0" // lit "1")%peg.
Proof.
  split; [|split].
  - intros c d s D. assert (C : c = 48 \/ c = 49) by (destruct D; lia). destruct C as [->| ->]; [apply ev_alt_l; apply (ev_str (name_of "0"))|apply ev_alt_r; [apply ev_str_no; reflexivity|apply (ev_str (name_of "1"))] ].
  - intros c s G. unfold word_char, PkgSpec.is_digit in G. apply ev_alt_r; apply ev_str_no; [change (name_of "0") with [48]|change (name_of "1") with [49] ]; cbn [strip]; [destruct (N.eqb_spec 48 c)|destruct (N.eqb_spec 49 c)]; try reflexivity; exfalso; lia.
  - apply no_end. reflexivity.
Qed.
Lemma octal_peg : digit_peg 8 (PRange 48 55).
Proof.
  split; [|split].
  - intros c d s D. apply ev_range. destruct D; lia.
  - intros c s G. apply ev_range_no. unfold word_char, PkgSpec.is_digit in G. lia.
  - apply no_end. reflexivity.
Qed.
Lemma hexadecimal_peg : digit_peg 16 (digit09 // PRange 97 102 // PRange 65 70)%peg.
Proof.
  split; [|split].
  - intros c d s D. unfold digit09. destruct D as [d D D'|d D D'|d D D'].
    + apply ev_alt_l, ev_range. lia.
    + apply ev_alt_r; [apply ev_range_no; lia|]. apply ev_alt_l, ev_range. lia.
    + apply ev_alt_r; [apply ev_range_no; lia|]. apply ev_alt_r; [apply ev_range_no; lia|]. apply ev_range. lia.
  - intros c s G. unfold word_char, PkgSpec.is_digit, PkgSpec.is_letter in G. unfold digit09. repeat (apply ev_alt_r; [apply ev_range_no; lia|]). apply ev_range_no; lia.
  - apply no_end. reflexivity.
Qed.
Lemma ev_pieces_then b p : digit_peg b p -> forall ps s, Forall (piece b) ps -> ev ((lit "_")^? ~~ p)%peg s NoMatch -> ev (PStar ((lit "_")^? ~~ p)%peg) (concat ps ++ s) (Match [] s).
Proof.
  intro P. induction ps as [|x ps IH]; intros s F G; [apply ev_star_end, G|]. inversion F; subst. cbn [concat]. rewrite <- app_assoc. apply (ev_star _ _ [] (concat ps ++ s) [] s); [apply (ev_piece b p P); assumption|apply IH; assumption].
Qed.
Definition no_digit (s : text) : Prop := match s with c :: _ => ~ PkgSpec.is_digit c /\ c <> 95 | [] => True end.
Lemma no_glue_digit s : no_glue s -> no_digit s.
Proof. destruct s as [|c s]; cbn; [auto|]. unfold word_char. tauto. Qed.
Lemma ev_no_more s : no_digit s -> ev ((lit "_")^? ~~ digit09)%peg s NoMatch.
Proof.
  intro G. destruct s as [|c s].
  - eapply ev_seq_no2; [apply ev_opt_no, ev_str_no; reflexivity|apply no_end; reflexivity].
  - destruct G as (G & U). eapply ev_seq_no2; [apply ev_opt_no, ev_str_no|unfold digit09; apply ev_range_no; exact G]. change (name_of "_") with [95]. cbn [strip]. destruct (N.eqb_spec 95 c); congruence.
Qed.
Lemma ev_digits t ds s : numeral 10 t ds -> no_digit s -> ev (PRef literal_real_digits) (t ++ s) (Match [Node literal_real_digits t []] s).
Proof.
  intros H G. destruct (numeral_pieces _ _ _ H) as (c & d & ps & -> & D & F). apply ev_ref; [reflexivity|]. cbn [grammar]. apply (ev_seq _ _ _ [] (concat ps ++ s) [] s); [apply (proj1 decimal_peg c d), D|]. apply (ev_pieces_then 10 digit09 decimal_peg); [exact F|apply ev_no_more, G].
Qed.
Lemma ev_no_digits s : no_digit s -> ev (PRef literal_real_digits) s NoMatch.
Proof. intro G. apply ev_ref_no. cbn [grammar]. apply ev_seq_no. destruct s as [|c s]; [apply no_end; reflexivity|]. unfold digit09. apply ev_range_no. apply G. Qed.
Lemma ev_decimal t ds s : numeral 10 t ds -> no_leading_zero t -> no_glue s -> ev (PRef literal_integer_decimal) (t ++ s) (Match [Node literal_integer_decimal t []] s).
Proof.
  intros H Z G. destruct (numeral_pieces _ _ _ H) as (c & d & ps & -> & D & F). apply ev_ref; [reflexivity|]. cbn [grammar]. destruct Z as [(c' & r & E & Z)|Z].
  - injection E as <- _. apply ev_alt_r; [apply ev_seq_no, ev_seq_no, ev_str_no; change (name_of "0") with [48]; cbn [app strip]; destruct (N.eqb_spec 48 c); congruence|].
    apply (ev_seq _ _ _ [] (concat ps ++ s) [] s); [apply ev_range; destruct D; lia|]. apply (ev_pieces 10 digit09 decimal_peg); assumption.
  - inversion Z as [|? ? C Z']; subst. destruct (digit_word _ _ _ D) as (_ & N). assert (c = 48) by (destruct C; congruence). subst c. apply ev_alt_l. unfold PSome.
    assert (P : forall ps, Forall (piece 10) ps -> Forall (fun c => c = 48 \/ c = 95) (concat ps) -> forall s, no_glue s -> ev (PStar ((lit "_")^? ~~ lit "0")%peg) (concat ps ++ s) (Match [] s)).
    { clear. intro ps. induction ps as [|x ps IH]; intros F Z s G.
      - apply ev_star_end. cbn [concat app]. destruct s as [|c s]; [eapply ev_seq_no2; [apply ev_opt_no, ev_str_no; reflexivity|apply ev_str_no; reflexivity]|]. cbn [no_glue] in G. unfold word_char, PkgSpec.is_digit in G.
        eapply ev_seq_no2; [apply ev_opt_no, ev_str_no|apply ev_str_no]; [change (name_of "_") with [95]|change (name_of "0") with [48] ]; cbn [strip]; [destruct (N.eqb_spec 95 c)|destruct (N.eqb_spec 48 c)]; try reflexivity; exfalso; lia.
      - inversion F as [|? ? P F']; subst. cbn [concat] in *. apply Forall_app in Z as (Z1 & Z2). rewrite <- app_assoc. apply (ev_star _ _ [] (concat ps ++ s) [] s); [|apply IH; assumption].
        destruct P as (c & d & D & P). destruct (digit_word _ _ _ D) as (_ & N). assert (c = 48) by (destruct P as [->| ->]; [inversion Z1 as [|? ? C ?]|inversion Z1 as [|? ? ? C']; inversion C' as [|? ? C ?] ]; subst; destruct C; congruence). subst c. destruct P as [->| ->].
        + apply (ev_seq _ _ _ [] ([48] ++ concat ps ++ s) []); [apply ev_opt_no, ev_str_no; reflexivity|apply (ev_str (name_of "0"))].
        + apply (ev_seq _ _ _ [] ([48] ++ concat ps ++ s) []); [apply ev_opt; apply (ev_str (name_of "_"))|apply (ev_str (name_of "0"))]. }
    apply (ev_seq _ _ _ [] s [] s); [apply (ev_seq _ _ _ [] (concat ps ++ s) [] s); [apply (ev_str (name_of "0"))|apply P; assumption]|]. apply ev_star_end, ev_seq_no, ev_str_no. change (name_of "0") with [48]. destruct s as [|c s]; [reflexivity|]. cbn [strip]. destruct (N.eqb_spec 48 c) as [<-|]; [|reflexivity]. exfalso. apply G. unfold word_char, PkgSpec.is_digit. lia.
Qed.
Lemma behind_pieces b t ds : behind_prefix b t ds -> exists p ps, t = p ++ concat ps /\ piece b p /\ Forall (piece b) ps.
Proof.
  intros [H|(t' & -> & H)]; destruct (numeral_pieces _ _ _ H) as (c & d & ps & -> & D & F); [exists [c], ps|exists [95; c], ps]; (split; [reflexivity|]); (split; [exists c, d; auto|exact F]).
Qed.
Lemma ev_behind b p t ds s : digit_peg b p -> behind_prefix b t ds -> no_glue s -> ev (PSome ((lit "_")^? ~~ p)%peg) (t ++ s) (Match [] s).
Proof.
  intros P H G. destruct (behind_pieces _ _ _ H) as (x & ps & -> & X & F). unfold PSome. rewrite <- app_assoc. apply (ev_seq _ _ _ [] (concat ps ++ s) [] s); [apply (ev_piece b p P), X|apply (ev_pieces b p P); assumption].
Qed.

Definition hd_not (cs : list N) (s : text) : Prop := match s with c :: _ => ~ In c cs | [] => True end.
Lemma strip_hd c t s : hd_not [c] s -> strip (c :: t) s = None.
Proof. destruct s as [|d s]; [reflexivity|]. intro N. cbn [strip]. destruct (N.eqb_spec c d) as [->|]; [|reflexivity]. exfalso. apply N. left. reflexivity. Qed.
Lemma hd_not_in c cs s : In c cs -> hd_not cs s -> hd_not [c] s.
Proof. destruct s as [|d s]; [auto|]. cbn. intros I N [->|[] ]. apply N, I. Qed.
Lemma ev_point p v s : point_literal p v -> plain p -> no_digit s -> exists cs, ev (PRef literal_real_point_notation) (point_text p ++ s) (Match [Node literal_real_point_notation (point_text p) cs] s) /\ point_of cs = Done p.
Proof.
  intros P Q G. destruct P as [t ds _|t ds D|t1 d1 t2 d2 D1 D2]; [destruct Q| |].
  - exists [Node literal_real_digits t []]. split; [apply ev_ref; [reflexivity|]|reflexivity]. cbn [grammar point_text]. rewrite <- app_assoc. apply ev_alt_r.
    + eapply ev_seq_no2; [apply ev_opt; apply (ev_digits t ds ([46] ++ s) D); cbn; unfold PkgSpec.is_digit; lia|]. apply ev_ref_no. cbn [grammar]. eapply ev_seq_no2; [apply (ev_str (name_of "."))|apply ev_no_digits, G].
    + apply (ev_seq _ _ _ [Node literal_real_digits t []] ([46] ++ s) [] s); [apply (ev_digits t ds ([46] ++ s) D); cbn; unfold PkgSpec.is_digit; lia|apply (ev_str (name_of "."))].
  - exists [Node literal_real_digits t1 []; Node literal_real_fraction ([46] ++ t2) [Node literal_real_digits t2 []]]. split; [apply ev_ref; [reflexivity|]|]. { cbn [grammar point_text]. change (t1 ++ 46 :: t2) with (t1 ++ [46] ++ t2). rewrite <- !app_assoc. apply ev_alt_l.
      apply (ev_seq _ _ _ [Node literal_real_digits t1 []] (([46] ++ t2) ++ s) [Node literal_real_fraction ([46] ++ t2) [Node literal_real_digits t2 []]] s); [apply ev_opt; rewrite <- app_assoc; apply (ev_digits t1 d1 ([46] ++ t2 ++ s) D1); cbn; unfold PkgSpec.is_digit; lia|].
      apply ev_ref; [reflexivity|]. cbn [grammar]. rewrite <- app_assoc. apply (ev_seq _ _ _ [] (t2 ++ s) _ s); [apply (ev_str (name_of "."))|apply (ev_digits t2 d2 s D2 G)]. }
    reflexivity.
Qed.
Lemma ev_no_point t ds s : numeral 10 t ds -> no_digit s -> hd_not [46] s -> ev (PRef literal_real_point_notation) (t ++ s) NoMatch.
Proof.
  intros D G P. apply ev_ref_no. cbn [grammar]. apply ev_alt_r.
  - eapply ev_seq_no2; [apply ev_opt, (ev_digits t ds s D G)|]. apply ev_ref_no. cbn [grammar]. apply ev_seq_no, ev_str_no, strip_hd, P.
  - eapply ev_seq_no2; [apply (ev_digits t ds s D G)|]. apply ev_str_no, strip_hd, P.
Qed.
Lemma ev_exponent e sign t ds s : In e [101; 69] -> In sign [ []; [43]; [45] ] -> numeral 10 t ds -> no_digit s ->
  ev (PRef literal_real_exponent) ((e :: sign ++ t) ++ s) (Match [Node literal_real_exponent (e :: sign ++ t) [Node literal_real_digits t []]] s).
Proof.
  intros E S D G. apply ev_ref; [reflexivity|]. cbn [grammar]. change ((e :: sign ++ t) ++ s) with ([e] ++ (sign ++ t) ++ s). rewrite <- app_assoc. apply (ev_seq _ _ _ [] (sign ++ t ++ s) _ s).
  - destruct E as [<-|[<-|[] ] ]; [apply ev_alt_l; apply (ev_str (name_of "e"))|apply ev_alt_r; [apply ev_str_no; reflexivity|apply (ev_str (name_of "E"))] ].
  - apply (ev_seq _ _ _ [] (t ++ s) _ s); [|apply (ev_digits t ds s D G)]. destruct S as [<-|[<-|[<-|[] ] ] ].
    + destruct (numeral_first _ _ _ D) as (c & r & d & -> & I). apply ev_opt_no. apply ev_alt_r; apply ev_str_no; apply strip_hd; cbn; (intros [X|[] ]; destruct I; lia).
    + apply ev_opt, ev_alt_l. apply (ev_str (name_of "+")).
    + apply ev_opt, ev_alt_r; [apply ev_str_no; reflexivity|]. apply (ev_str (name_of "-")).
Qed.
Lemma ev_no_exponent s : hd_not [101; 69] s -> ev (PRef literal_real_exponent) s NoMatch.
Proof. intro N. apply ev_ref_no. cbn [grammar]. apply ev_seq_no. apply ev_alt_r; apply ev_str_no; apply strip_hd; eapply hd_not_in; try exact N; cbn; auto. Qed.
Lemma no_glue_hd s : no_glue s -> hd_not [101; 69] s.
Proof. destruct s as [|c s]; cbn; [auto|]. unfold word_char, PkgSpec.is_letter. lia. Qed.
Lemma ev_no_real t ds s : numeral 10 t ds -> no_digit s -> hd_not [46; 101; 69] s -> ev (PRef literal_real) (t ++ s) NoMatch.
Proof.
  intros D G P. assert (P1 : hd_not [46] s) by (eapply hd_not_in; [|exact P]; cbn; auto). assert (P2 : hd_not [101; 69] s) by (destruct s; cbn in *; tauto).
  apply ev_ref_no. cbn [grammar]. apply ev_alt_r; [|apply (ev_no_point t ds); assumption]. apply ev_ref_no. cbn [grammar]. eapply ev_seq_no2; [apply ev_alt_r; [apply (ev_no_point t ds); assumption|apply (ev_digits t ds); assumption]|]. apply ev_no_exponent, P2.
Qed.
Lemma ev_integer k t n s : integer_literal k t n -> (k = Decimal -> no_leading_zero t) -> no_glue s -> exists r, ev (PRef literal_integer) (t ++ s) (Match [Node literal_integer t [Node r t []]] s) /\ integer_rule r = Some k.
Proof.
  intros I Z G. destruct I as [x t ds X B|x t ds X B|x t ds X B|t ds D].
  - exists literal_integer_binary. split; [|reflexivity]. apply ev_ref; [reflexivity|]. cbn [grammar]. apply ev_alt_l. apply ev_ref; [reflexivity|]. cbn [grammar app]. apply (ev_seq _ _ _ [] (x :: t ++ s) [] s); [apply (ev_str (name_of "0") (x :: t ++ s))|].
    apply (ev_seq _ _ _ [] (t ++ s) [] s); [|apply (ev_behind 2 _ t ds s binary_peg B G)]. destruct X as [->| ->]; [apply ev_alt_l; apply (ev_str (name_of "b"))|apply ev_alt_r; [apply ev_str_no; reflexivity|apply (ev_str (name_of "B"))] ].
  - exists literal_integer_octal. split; [|reflexivity]. apply ev_ref; [reflexivity|]. cbn [grammar]. apply ev_alt_r. { apply ev_ref_no. cbn [grammar app]. eapply ev_seq_no2; [apply (ev_str (name_of "0") (x :: t ++ s))|]. apply ev_seq_no, ev_alt_r; apply ev_str_no; destruct X as [->| ->]; reflexivity. }
    apply ev_alt_l. apply ev_ref; [reflexivity|]. cbn [grammar app]. apply (ev_seq _ _ _ [] (x :: t ++ s) [] s); [apply (ev_str (name_of "0") (x :: t ++ s))|].
    apply (ev_seq _ _ _ [] (t ++ s) [] s); [|apply (ev_behind 8 _ t ds s octal_peg B G)]. destruct X as [->| ->]; [apply ev_alt_l; apply (ev_str (name_of "o"))|apply ev_alt_r; [apply ev_str_no; reflexivity|apply (ev_str (name_of "O"))] ].
  - exists literal_integer_hexadecimal. split; [|reflexivity]. apply ev_ref; [reflexivity|]. cbn [grammar]. do 2 (apply ev_alt_r; [apply ev_ref_no; cbn [grammar app]; eapply ev_seq_no2; [apply (ev_str (name_of "0") (x :: t ++ s))|]; apply ev_seq_no, ev_alt_r; apply ev_str_no; destruct X as [->| ->]; reflexivity|]).
    apply ev_alt_l. apply ev_ref; [reflexivity|]. cbn [grammar app]. apply (ev_seq _ _ _ [] (x :: t ++ s) [] s); [apply (ev_str (name_of "0") (x :: t ++ s))|].
    apply (ev_seq _ _ _ [] (t ++ s) [] s); [|apply (ev_behind 16 _ t ds s hexadecimal_peg B G)]. destruct X as [->| ->]; [apply ev_alt_l; apply (ev_str (name_of "x"))|apply ev_alt_r; [apply ev_str_no; reflexivity|apply (ev_str (name_of "X"))] ].
  - exists literal_integer_decimal. split; [|reflexivity]. specialize (Z eq_refl). apply ev_ref; [reflexivity|]. cbn [grammar].
    assert (NO : forall a b rest, In a [98; 111; 120] -> In b [66; 79; 88] -> ev (lit "0" ~~ (PStr [a] // PStr [b]) ~~ rest)%peg (t ++ s) NoMatch).
    { intros a b rest A B. destruct (numeral_pieces _ _ _ D) as (c & d & ps & -> & DD & F). destruct (N.eq_dec c 48) as [->|NE].
      - eapply ev_seq_no2; [apply (ev_str (name_of "0") (concat ps ++ s))|]. destruct Z as [(c & r & E & N)|Z]; [injection E as <- _; congruence|]. inversion Z as [|? ? _ Z']; subst. apply ev_seq_no.
        assert (H : hd_not [a; b] (concat ps ++ s)). { destruct (concat ps) as [|y r] eqn:EQ; [|inversion Z' as [|? ? Y ?]; subst; cbn; cbn in A, B; lia]. cbn [app]. destruct s as [|y s]; [exact Logic.I|]. cbn in G, A, B. cbn. unfold word_char, PkgSpec.is_letter in G. lia. }
        apply ev_alt_r; apply ev_str_no, strip_hd; eapply hd_not_in; try exact H; cbn; auto.
      - apply ev_seq_no, ev_str_no. change (name_of "0") with [48]. cbn [app strip]. destruct (N.eqb_spec 48 c); congruence. }
    apply ev_alt_r; [apply ev_ref_no; apply (NO 98 66); cbn; auto|]. apply ev_alt_r; [apply ev_ref_no; apply (NO 111 79); cbn; auto|]. apply ev_alt_r; [apply ev_ref_no; apply (NO 120 88); cbn; auto|]. apply (ev_decimal t ds); assumption.
Qed.
(** A number literal is read as its value *)
Lemma ev_number t q s : number_text true t q -> no_glue s -> (decimal_text t -> hd_not [46] s) -> exists c, ev (PRef literal) (t ++ s) (Match [Node literal t [c]] s) /\ (forall parse, parse_literal parse c = Done (ENumber q)).
Proof.
  intros H G P. destruct H as [k t n I Z|p v q PL S V|m v e sign t ds q M E SG D S V].
  - destruct (ev_integer k t n s I Z G) as (r & R & K). exists (Node literal_integer t [Node r t []]). split.
    + apply ev_ref; [reflexivity|]. cbn [grammar]. apply ev_alt_r; [destruct I as [? ? ? ? ?|? ? ? ? ?|? ? ? ? ?|t ds D]; try (apply no_start; reflexivity); destruct (numeral_first _ _ _ D) as (c & u & d & -> & DI); apply no_start; assert (C : 48 <= c <= 57) by (destruct DI; lia); clear - C; assert (X : In c [48;49;50;51;52;53;54;55;56;57]) by (cbn; lia); cbn in X; repeat (destruct X as [<-|X]; [reflexivity|]); destruct X|].
      apply ev_alt_r; [|apply ev_alt_l; exact R]. destruct I as [x t ds X B|x t ds X B|x t ds X B|t ds D].
      1-3: apply (ev_no_real [48] [0] (x :: t ++ s)); [apply nu_digit, (di_decimal 10 0); lia|cbn; unfold PkgSpec.is_digit; lia|cbn; lia].
      apply (ev_no_real t ds); [exact D|apply no_glue_digit, G|]. specialize (P (ex_intro _ ds D)). apply no_glue_hd in G. destruct s; cbn in *; tauto.
    + intro parse. cbn [parse_literal]. unfold parse_integer. cbn [children]. rewrite K.
      assert (EV : parse_integer_literal k t = Ok n) by (destruct I as [x u ds _ H|x u ds _ H|x u ds _ H|u ds H]; cbn [parse_integer_literal skipn]; [apply behind_value|apply behind_value|apply behind_value|apply numeral_value]; (exact H || lia)). rewrite EV. reflexivity.
  - specialize (S eq_refl). specialize (V S). subst q. destruct (ev_point p v s PL S (no_glue_digit s G)) as (cs & R & C). eexists. split.
    + apply ev_ref; [reflexivity|]. cbn [grammar]. apply ev_alt_r.
      { assert (F : exists c r, point_text p = c :: r /\ 48 <= c <= 57). { destruct PL as [t ds _|t ds D|t1 d1 t2 d2 D1 D2]; [destruct S| |]; [destruct (numeral_first _ _ _ D) as (c & u & d & -> & DI)|destruct (numeral_first _ _ _ D1) as (c & u & d & -> & DI)]; eexists; eexists; (split; [reflexivity|destruct DI; lia]). }
        destruct F as (c & u & -> & C'). apply no_start. clear - C'. assert (X : In c [48;49;50;51;52;53;54;55;56;57]) by (cbn; lia); cbn in X; repeat (destruct X as [<-|X]; [reflexivity|]); destruct X. }
      apply ev_alt_l. apply ev_ref; [reflexivity|]. cbn [grammar]. apply ev_alt_r; [|exact R]. apply ev_ref_no. cbn [grammar]. eapply ev_seq_no2; [apply ev_alt_l, R|apply ev_no_exponent, no_glue_hd, G].
    + intro parse. cbn [parse_literal]. unfold parse_real_literal. cbn [children]. rewrite C. cbn [obind]. rewrite (point_right p v PL S). reflexivity.
  - specialize (S eq_refl). specialize (V S). subst q. pose proof (ev_exponent e sign t ds s E SG D (no_glue_digit s G)) as X. assert (NE : no_digit ((e :: sign ++ t) ++ s)) by (cbn; unfold PkgSpec.is_digit; destruct E as [<-|[<-|[] ] ]; lia).
    assert (B : exists b, ev (literal_real_point_notation // literal_real_digits)%peg (mantissa_text m ++ (e :: sign ++ t) ++ s) (Match [b] ((e :: sign ++ t) ++ s)) /\ (match b with Node literal_real_point_notation _ cs => exists p, m = inl p /\ point_of cs = Done p | Node literal_real_digits x _ => m = inr x | _ => False end)).
    { destruct m as [p|x]; cbn [mantissa mantissa_text plain_mantissa] in *.
      - destruct (ev_point p v _ M S NE) as (cs & R & C). eexists. split; [apply ev_alt_l, R|]. exists p. auto.
      - destruct M as (xs & M & _). eexists. split; [apply ev_alt_r; [apply (ev_no_point x xs); [exact M|exact NE|cbn; destruct E as [<-|[<-|[] ] ]; lia]|apply (ev_digits x xs); assumption]|]. reflexivity. }
    destruct B as (b & B & MB).
    assert (EC : exists c, nth_error (e :: sign ++ t) 1 = Some c /\ (c =? 45) = (if list_eq_dec N.eq_dec sign [45] then true else false)).
    { destruct (numeral_first _ _ _ D) as (c & u & d & -> & DI). destruct SG as [<-|[<-|[<-|[] ] ] ]; [exists c|exists 43|exists 45]; (split; [reflexivity|]); cbn; try reflexivity. apply N.eqb_neq. destruct DI; lia. }
    destruct EC as (c & NC & EC). set (xn := Node literal_real_exponent (e :: sign ++ t) [Node literal_real_digits t []]) in *. set (all := mantissa_text m ++ e :: sign ++ t). exists (Node literal_real all [Node literal_real_exponent_notation all [b; xn]]). split.
    + apply ev_ref; [reflexivity|]. cbn [grammar]. apply ev_alt_r.
      { assert (F : exists c r, mantissa_text m = c :: r /\ 48 <= c <= 57). { destruct m as [p|x]; cbn [mantissa mantissa_text plain_mantissa] in *; [destruct M as [y ys _|y ys DD|t1 d1 t2 d2 D1 D2]; [destruct S| |]; [destruct (numeral_first _ _ _ DD) as (c' & u & d & -> & DI)|destruct (numeral_first _ _ _ D1) as (c' & u & d & -> & DI)]|destruct M as (xs & M & _); destruct (numeral_first _ _ _ M) as (c' & u & d & -> & DI)]; eexists; eexists; (split; [reflexivity|destruct DI; lia]). }
        destruct F as (c' & u & F & C'). unfold all. rewrite F. cbn [app]. apply no_start. clear - C'. assert (X : In c' [48;49;50;51;52;53;54;55;56;57]) by (cbn; lia); cbn in X; repeat (destruct X as [<-|X]; [reflexivity|]); destruct X. }
      apply ev_alt_l. apply ev_ref; [reflexivity|]. cbn [grammar]. apply ev_alt_l. apply ev_ref; [reflexivity|]. cbn [grammar]. unfold all. rewrite <- app_assoc. apply (ev_seq _ _ _ [b] ((e :: sign ++ t) ++ s) [xn] s); [exact B|exact X].
    + intro parse. cbn [app parse_literal]. unfold parse_real_literal, xn. cbn [children tree_text]. rewrite NC.
      assert (VAL : of_notation (parse_real_exponent_notation m c t) = Done (Q2Qc (v * Qpower (10 # 1) (if list_eq_dec N.eq_dec sign [45%N] then - Z.of_N (number 10 ds) else Z.of_N (number 10 ds)))%Q)).
      { rewrite (mantissa_right m v c t ds M S D), EC. destruct (list_eq_dec N.eq_dec sign [45]); reflexivity. }
      destruct b as [r x cs]. destruct r; try (destruct MB; fail).
      * destruct MB as (p & -> & C). rewrite C. cbn [obind]. rewrite VAL. reflexivity.
      * rewrite <- MB in *. rewrite VAL. reflexivity.
Qed.

(** * Strings *)
Lemma ev_quoted q x : In q [34; 39] -> quotable q x -> forall s, ev (quoted q) (q :: x ++ q :: s) (Match [] s).
Proof.
  intros Q X s. set (P := (PNot (PStr [q] // PStr [92]) ~~ PAny)%peg). set (E := (PStr [92] ~~ (PNot (PStr [13] // PStr [10]) ~~ PAny) ~~ P^*)%peg).
  assert (Q92 : q <> 92) by (destruct Q as [<-|[<-|[] ] ]; discriminate).
  assert (STOP : forall c u, c = q \/ c = 92 -> ev P (c :: u) NoMatch).
  { intros c u C. apply ev_seq_no. destruct (N.eq_dec c q) as [->|NE]; [eapply ev_not_no, ev_alt_l, (ev_str [q])|]. destruct C as [C| ->]; [congruence|]. eapply ev_not_no, ev_alt_r; [apply ev_str_no; cbn [strip]; destruct (N.eqb_spec q 92); congruence|apply (ev_str [92])]. }
  assert (K : exists x1, ev (PStar P) (x ++ q :: s) (Match [] (x1 ++ q :: s)) /\ ev (PStar E) (x1 ++ q :: s) (Match [] (q :: s))).
  { induction X as [|c t C1 C2 X (x1 & I1 & I2)|c t C1 C2 X (x1 & I1 & I2)].
    - exists []. split; [apply ev_star_end, STOP; auto|]. apply ev_star_end, ev_seq_no, ev_str_no. cbn [app strip]. destruct (N.eqb_spec 92 q); congruence.
    - exists x1. split; [|exact I2]. cbn [app]. apply (ev_star _ _ [] (t ++ q :: s) [] _); [|exact I1]. apply (ev_seq _ _ _ [] (c :: t ++ q :: s) [] _); [|apply ev_any]. apply ev_not, ev_alt_r; apply ev_str_no; cbn [strip]; [destruct (N.eqb_spec q c)|destruct (N.eqb_spec 92 c)]; congruence.
    - exists (92 :: c :: t). split; [apply ev_star_end, STOP; auto|]. cbn [app]. apply (ev_star _ _ [] (x1 ++ q :: s) [] _); [|exact I2]. apply (ev_seq _ _ _ [] (c :: t ++ q :: s) [] _); [apply (ev_str [92])|]. apply (ev_seq _ _ _ [] (t ++ q :: s) [] _); [|exact I1]. apply (ev_seq _ _ _ [] (c :: t ++ q :: s) [] _); [|apply ev_any]. apply ev_not, ev_alt_r; apply ev_str_no; cbn [strip]; [destruct (N.eqb_spec 13 c)|destruct (N.eqb_spec 10 c)]; congruence. }
  destruct K as (x1 & K1 & K2). unfold quoted. apply (ev_seq _ _ _ [] (x ++ q :: s) [] s); [apply (ev_str [q])|]. apply (ev_seq _ _ _ [] (x1 ++ q :: s) [] s); [exact K1|]. apply (ev_seq _ _ _ [] (q :: s) [] s); [exact K2|apply (ev_str [q])].
Qed.
Lemma ev_string q x v s : In q [34; 39] -> quotable q x -> unescapes x v -> exists c, ev (PRef literal) ((q :: x ++ [q]) ++ s) (Match [Node literal (q :: x ++ [q]) [c]] s) /\ (forall parse, parse_literal parse c = Done (EString v)).
Proof.
  intros Q X U. set (t := q :: x ++ [q]). assert (R : exists r, ev (PRef literal_string) (t ++ s) (Match [Node literal_string t [Node r t []]] s)).
  { assert (T : t ++ s = q :: x ++ q :: s) by (unfold t; cbn [app]; rewrite <- app_assoc; reflexivity). destruct Q as [<-|[<-|[] ] ].
    - exists literal_string_double_quoted. apply ev_ref; [reflexivity|]. cbn [grammar]. apply ev_alt_r; [apply no_start; reflexivity|]. apply ev_ref; [reflexivity|]. cbn [grammar]. rewrite T. apply ev_quoted; [cbn; auto|exact X].
    - exists literal_string_single_quoted. apply ev_ref; [reflexivity|]. cbn [grammar]. apply ev_alt_l. apply ev_ref; [reflexivity|]. cbn [grammar]. rewrite T. apply ev_quoted; [cbn; auto|exact X]. }
  destruct R as (r & R). exists (Node literal_string t [Node r t []]). split.
  - apply ev_ref; [reflexivity|]. cbn [grammar]. do 3 (apply ev_alt_r; [destruct Q as [<-|[<-|[] ] ]; apply no_start; reflexivity|]). apply ev_alt_l, R.
  - intro parse. cbn [parse_literal]. unfold parse_string. cbn [children]. unfold t. rewrite rev_app_distr. cbn [rev app]. assert (IQ : is_quote q = true) by (destruct Q as [<-|[<-|[] ] ]; reflexivity). rewrite IQ, rev_involutive, (unescape_complete _ _ U). reflexivity.
Qed.

(** * Types *)
Lemma denotes_digits t n : denotes_number t n -> t <> [] /\ Forall PkgSpec.is_digit t /\ fold_left (fun n c => 10 * n + (c - 48)) t 0 = n.
Proof.
  induction 1 as [c C|s n c H (IH1 & IH2 & IH3) C]; [split; [discriminate|split; [constructor; [exact C|constructor]|cbn [fold_left]; lia] ]|]. split; [destruct s; discriminate|]. split; [apply Forall_app; split; [exact IH2|constructor; [exact C|constructor] ]|]. rewrite fold_left_app. cbn [fold_left]. rewrite IH3. reflexivity.
Qed.
Lemma denotes_numeral t n : denotes_number t n -> exists ds, numeral 10 t ds.
Proof.
  induction 1 as [c C|s n c H (ds & IH) C].
  - exists [c - 48]. apply nu_digit, decimal_digit; unfold PkgSpec.is_digit in C; lia.
  - exists (ds ++ [c - 48]). apply nu_more; [exact IH|]. apply decimal_digit; unfold PkgSpec.is_digit in C; lia.
Qed.
Lemma parse_u8_complete t n : denotes_number t n -> n < 256 -> parse_u8 t = Some n.
Proof.
  intros D L. destruct (denotes_digits t n D) as (NE & F & E). destruct t as [|c r]; [congruence|]. inversion F as [|? ? C F']; subst. rewrite (parse_u8_eq c r C). assert (A : forallb digit (c :: r) = true) by (apply forallb_forall; intros y Y; apply digit_spec; rewrite Forall_forall in F; apply F, Y). rewrite A. cbv zeta. apply N.ltb_lt in L. rewrite L. reflexivity.
Qed.

Lemma ev_digit_star t s : Forall PkgSpec.is_digit t -> no_glue s -> ev (PStar digit09) (t ++ s) (Match [] s).
Proof.
  induction t as [|c t IH]; intros F G.
  - apply ev_star_end. destruct s as [|c s]; [apply no_end; reflexivity|]. unfold digit09. cbn [app no_glue] in *. range_no.
  - inversion F as [|? ? C F']; subst. cbn [app]. apply (ev_star _ _ [] (t ++ s) [] s); [apply ev_range, C|apply IH; assumption].
Qed.
Lemma ev_suffix_peg t n s : width t n -> no_glue s -> ev (PRef type_bit_length_suffix) (t ++ s) (Match [Node type_bit_length_suffix t []] s) /\ parse_suffix (Node type_bit_length_suffix t []) = Done n /\ between_1_and_64 n = true.
Proof.
  intros (D & (c & r & -> & C) & N) G. split; [|split].
  - apply ev_ref; [reflexivity|]. cbn [grammar app]. destruct (denotes_digits _ _ D) as (_ & F & _). inversion F as [|? ? C' F']; subst. apply (ev_seq _ _ _ [] (r ++ s) [] s); [apply ev_range; unfold PkgSpec.is_digit in C'; lia|apply ev_digit_star; assumption].
  - unfold parse_suffix. cbn [tree_text]. rewrite (parse_u8_complete _ _ D) by lia. reflexivity.
  - unfold between_1_and_64. apply andb_true_iff. rewrite !N.leb_le. exact N.
Qed.
Lemma ev_lit k s : ev (lit k) (name_of k ++ s) (Match [] s).
Proof. apply ev_str. Qed.
Lemma ev_ref_at r x t rest ts : silent r = false -> x = t ++ rest -> ev (grammar r) x (Match ts rest) -> ev (PRef r) x (Match [Node r t ts] rest).
Proof. intros S -> H. apply ev_ref; assumption. Qed.
(** uint8, int8, float16 *)
Lemma ev_kind (kind : rule) (k : string) t n s : In (kind, k) [(type_primitive_name_unsigned_integer, "uint"); (type_primitive_name_signed_integer, "int"); (type_primitive_name_floating_point, "float")]%string ->
  width t n -> no_glue s -> let x := name_of k ++ t in
  ev (PRef type_primitive_name) (x ++ s) (Match [Node type_primitive_name x [Node kind x [Node type_bit_length_suffix t []]]] s).
Proof.
  intros K W G x. destruct (ev_suffix_peg t n s W G) as (R & _). apply ev_ref; [reflexivity|]. cbn [grammar]. unfold x. clear x.
  assert (S : forall k, ev (lit k ~~ PRef type_bit_length_suffix)%peg ((name_of k ++ t) ++ s) (Match [Node type_bit_length_suffix t []] s)).
  { intro k'. rewrite <- app_assoc. apply (ev_seq _ _ _ [] (t ++ s) [Node type_bit_length_suffix t []] s); [apply ev_lit|exact R]. }
  destruct K as [ [= <- <-]|[ [= <- <-]|[ [= <- <-]|[] ] ] ].
  - apply ev_alt_l. apply ev_ref; [reflexivity|]. apply S.
  - apply ev_alt_r; [apply ev_ref_no, ev_seq_no, ev_str_no; reflexivity|]. apply ev_alt_l. apply ev_ref; [reflexivity|]. apply S.
  - do 2 (apply ev_alt_r; [apply ev_ref_no, ev_seq_no, ev_str_no; reflexivity|]). apply ev_ref; [reflexivity|]. apply S.
Qed.
Lemma ev_cast (k : string) t c truncated (nm : tree) s : In k ["uint"; "int"; "float"]%string -> cast_word c truncated ->
  ev (PRef type_primitive_name) ((name_of k ++ t) ++ s) (Match [nm] s) ->
  exists cs, ev (PRef type_primitive) ((c ++ name_of k ++ t) ++ s) (Match [Node type_primitive (c ++ name_of k ++ t) cs] s) /\
  parse_primitive_type (Node type_primitive (c ++ name_of k ++ t) cs) = parse_primitive_type_name truncated nm.
Proof.
  intros K C R. assert (NB : forall u, no_blank ((name_of k ++ t) ++ u)) by (intro u; destruct K as [<-|[<-|[<-|[] ] ] ]; cbn; lia).
  destruct C as [|w W|w W].
  - cbn [app]. eexists [Node type_primitive_saturated _ [nm]]. split; [|reflexivity]. apply ev_ref; [reflexivity|]. cbn [grammar]. apply ev_alt_r; [apply ev_ref_no, ev_seq_no, ev_str_no; destruct K as [<-|[<-|[<-|[] ] ] ]; reflexivity|]. apply ev_alt_l. apply ev_ref; [reflexivity|]. cbn [grammar].
    apply (ev_seq _ _ _ [] ((name_of k ++ t) ++ s) [nm] s); [|exact R]. apply ev_opt_no, ev_seq_no, ev_str_no. destruct K as [<-|[<-|[<-|[] ] ] ]; reflexivity.
  - eexists [Node type_primitive_saturated _ [nm]]. split; [|reflexivity]. apply ev_ref; [reflexivity|]. cbn [grammar]. apply ev_alt_r; [apply ev_ref_no, ev_seq_no, ev_str_no; reflexivity|]. apply ev_alt_l. apply ev_ref; [reflexivity|]. cbn [grammar].
    apply (ev_seq _ _ _ [] ((name_of k ++ t) ++ s) [nm] s); [|exact R]. apply ev_opt. rewrite <- !app_assoc. apply (ev_seq _ _ _ [] (w ++ name_of k ++ t ++ s) [] _); [apply ev_lit|apply (ev_ws w)]; [exact W|]. specialize (NB s). rewrite <- app_assoc in NB. exact NB.
  - eexists [Node type_primitive_truncated _ [nm]]. split; [|reflexivity]. apply ev_ref; [reflexivity|]. cbn [grammar]. apply ev_alt_l. apply ev_ref; [reflexivity|]. cbn [grammar].
    rewrite <- !app_assoc. apply (ev_seq _ _ _ [] (w ++ name_of k ++ t ++ s) [nm] _); [apply ev_lit|]. apply (ev_seq _ _ _ [] (name_of k ++ t ++ s) [nm] _); [apply (ev_ws w)|rewrite <- app_assoc in R; exact R]; [exact W|]. specialize (NB s). rewrite <- app_assoc in NB. exact NB.
Qed.
Lemma ev_primitive p t s : primitive_name p t -> no_glue s -> exists cs, ev (PRef type_primitive) (t ++ s) (Match [Node type_primitive t cs] s) /\ parse_primitive_type (Node type_primitive t cs) = Done p.
Proof.
  intros P G. destruct P as [| | |c b t n C W|c t n C W|c b t n p C W F].
  - exists [Node type_primitive_bool (name_of "bool") [Node type_primitive_name_boolean (name_of "bool") []]]. split; [|reflexivity]. apply ev_ref; [reflexivity|]. cbn [grammar]. apply ev_alt_r; [apply no_start; reflexivity|]. apply ev_alt_r; [apply no_start; reflexivity|]. apply ev_alt_l. apply ev_ref; [reflexivity|]. cbn [grammar]. apply ev_ref; [reflexivity|]. apply ev_lit.
  - exists [Node type_primitive_name_utf8 (name_of "utf8") []]. split; [|reflexivity]. apply ev_ref; [reflexivity|]. cbn [grammar]. apply ev_alt_r; [apply no_start; reflexivity|].
    apply ev_alt_r; [apply ev_ref_no; cbn [grammar]; eapply ev_seq_no2; [apply ev_opt_no, ev_seq_no, ev_str_no; reflexivity|]; apply ev_ref_no; cbn [grammar]; repeat apply ev_alt_r; apply ev_ref_no, ev_seq_no, ev_str_no; reflexivity|].
    apply ev_alt_r; [apply no_start; reflexivity|]. apply ev_alt_l. apply ev_ref; [reflexivity|]. apply ev_lit.
  - exists [Node type_primitive_name_byte (name_of "byte") []]. split; [|reflexivity]. apply ev_ref; [reflexivity|]. cbn [grammar]. apply ev_alt_r; [apply no_start; reflexivity|]. apply ev_alt_r; [apply no_start; reflexivity|]. apply ev_alt_r; [apply ev_ref_no; cbn [grammar]; apply ev_ref_no, ev_str_no; reflexivity|]. apply ev_alt_r; [apply no_start; reflexivity|]. apply ev_ref; [reflexivity|]. apply ev_lit.
  - destruct (ev_suffix_peg t n s W G) as (_ & S & B). destruct (ev_cast "uint" t c b _ s ltac:(cbn; auto) C (ev_kind type_primitive_name_unsigned_integer "uint" t n s ltac:(cbn; auto) W G)) as (cs & R & E). exists cs. split; [exact R|]. rewrite E. cbn [parse_primitive_type_name]. rewrite S. cbn [obind]. rewrite B. reflexivity.
  - destruct (ev_suffix_peg t n s W G) as (_ & S & B). destruct (ev_cast "int" t c false _ s ltac:(cbn; auto) C (ev_kind type_primitive_name_signed_integer "int" t n s ltac:(cbn; auto) W G)) as (cs & R & E). exists cs. split; [exact R|]. rewrite E. cbn [parse_primitive_type_name]. rewrite S. cbn [obind]. rewrite B. reflexivity.
  - destruct (ev_suffix_peg t n s W G) as (_ & S & B). destruct (ev_cast "float" t c b _ s ltac:(cbn; auto) C (ev_kind type_primitive_name_floating_point "float" t n s ltac:(cbn; auto) W G)) as (cs & R & E). exists cs. split; [exact R|]. rewrite E. cbn [parse_primitive_type_name]. rewrite S. cbn [obind]. destruct F as [ [= <- <-]|[ [= <- <-]|[ [= <- <-]|[] ] ] ]; reflexivity.
Qed.

(** No version of a type follows *)
Definition no_version (s : text) : Prop := ev ((lit "." ~~ identifier_)^* ~~ lit "." ~~ type_version_specifier)%peg s NoMatch.
Lemma no_point_version s : hd_not [46] s -> no_version s.
Proof. intro H. eapply ev_seq_no2; [apply ev_star_end, ev_seq_no, ev_str_no, strip_hd, H|]. apply ev_seq_no, ev_str_no, strip_hd, H. Qed.
Lemma ev_no_versioned n s : identifier n -> no_glue s -> no_version s -> ev (PRef type_versioned) (n ++ s) NoMatch.
Proof. intros I G V. apply ev_ref_no. cbn [grammar]. eapply ev_seq_no2; [apply (ev_identifier n s I G)|exact V]. Qed.
Lemma identifier_digits c w t : (PkgSpec.is_letter c \/ c = 95) -> Forall word_char w -> Forall PkgSpec.is_digit t -> identifier ((c :: w) ++ t).
Proof. intros C W T. exists c, (w ++ t). split; [reflexivity|]. split; [exact C|]. apply Forall_app. split; [exact W|]. eapply Forall_impl; [|exact T]. cbn. auto. Qed.
Ltac words := match goal with |- Forall _ ?x => let y := eval vm_compute in x in change x with y end; repeat (apply Forall_cons; [unfold word_char, PkgSpec.is_letter, PkgSpec.is_digit; lia|]); apply Forall_nil.
Lemma width_digits t n : width t n -> Forall PkgSpec.is_digit t.
Proof. intros (D & _). apply (denotes_digits _ _ D). Qed.
Lemma space_hd cs w s : space w -> (forall c, In c cs -> c <> 32 /\ c <> 9) -> hd_not cs (w ++ s).
Proof. intros (B & N) C. destruct w as [|c w]; [congruence|]. inversion B; subst. cbn. intro I. apply C in I. lia. Qed.
Lemma space_glue w s : space w -> no_glue (w ++ s).
Proof. intros (B & N). destruct w as [|c w]; [congruence|]. inversion B; subst. cbn. unfold word_char, PkgSpec.is_letter, PkgSpec.is_digit. lia. Qed.
Lemma primitive_versioned p t s : primitive_name p t -> no_glue s -> no_version s -> ev (PRef type_versioned) (t ++ s) NoMatch.
Proof.
  intros P G V. assert (A : forall c b (k : string) x n, In k ["uint"; "int"; "float"]%string -> cast_word c b -> width x n -> ev (PRef type_versioned) ((c ++ name_of k ++ x) ++ s) NoMatch).
  { intros c b k x n K C W. destruct C as [|w S|w S].
    - apply ev_no_versioned; [|exact G|exact V]. apply width_digits in W. destruct K as [<-|[<-|[<-|[] ] ] ]; [apply (identifier_digits 117 (name_of "int"))|apply (identifier_digits 105 (name_of "nt"))|apply (identifier_digits 102 (name_of "loat"))]; (exact W || words || (unfold PkgSpec.is_letter; lia)).
    - rewrite <- !app_assoc. apply ev_no_versioned; [exists 115, (name_of "aturated"); split; [reflexivity|]; split; [unfold PkgSpec.is_letter; lia|words]|apply space_glue, S|apply no_point_version, space_hd; [exact S|cbn; lia] ].
    - rewrite <- !app_assoc. apply ev_no_versioned; [exists 116, (name_of "runcated"); split; [reflexivity|]; split; [unfold PkgSpec.is_letter; lia|words]|apply space_glue, S|apply no_point_version, space_hd; [exact S|cbn; lia] ]. }
  destruct P as [| | |c b t n C W|c t n C W|c b t n p C W F].
  1-3: apply ev_no_versioned; [|exact G|exact V]. 1: exists 98, (name_of "ool"). 2: exists 117, (name_of "tf8"). 3: exists 98, (name_of "yte"). 1-3: (split; [reflexivity|]); (split; [unfold PkgSpec.is_letter; lia|words]).
  - apply (A c b "uint"%string t n); cbn; auto.
  - apply (A c false "int"%string t n); cbn; auto.
  - apply (A c b "float"%string t n); cbn; auto.
Qed.
Lemma ev_names ns : forall x, Forall identifier ns -> no_glue x -> ev (lit "." ~~ identifier_)%peg x NoMatch -> ev ((lit "." ~~ identifier_)^*)%peg (flat_map (fun n => 46 :: n) ns ++ x) (Match (map (fun n => Node identifier_ n []) ns) x).
Proof.
  induction ns as [|n ns IH]; intros x F G E; [apply ev_star_end, E|]. inversion F as [|? ? I F']; subst. cbn [flat_map map]. rewrite <- app_assoc. change (Node identifier_ n [] :: ?y) with ([Node identifier_ n []] ++ y). eapply ev_star; [|apply IH; assumption].
  apply (ev_seq _ _ _ [] (n ++ flat_map (fun n => 46 :: n) ns ++ x) [Node identifier_ n []] _); [apply (ev_lit ".")|]. apply ev_identifier; [exact I|]. destruct ns as [|m ns]; [exact G|]. cbn. unfold word_char, PkgSpec.is_letter, PkgSpec.is_digit. lia.
Qed.
Lemma point_glue s : no_glue ([46] ++ s).
Proof. cbn. unfold word_char, PkgSpec.is_letter, PkgSpec.is_digit. lia. Qed.
Lemma ev_version t n s : version_number t n -> no_glue s -> ev (PRef literal_integer_decimal) (t ++ s) (Match [Node literal_integer_decimal t []] s) /\ parse_u8 t = Some n.
Proof. intros (D & Z & L) G. destruct (denotes_numeral _ _ D) as (ds & E). split; [apply (ev_decimal t ds); assumption|apply parse_u8_complete; assumption]. Qed.
Lemma ev_no_identifier c s : ~ (PkgSpec.is_letter c \/ c = 95) -> ev (PRef identifier_) (c :: s) NoMatch.
Proof. intro C. apply ev_ref_no. cbn [grammar]. apply ev_seq_no. unfold PkgSpec.is_letter in C. apply ev_alt_r; [apply ev_range_no; lia|]. apply ev_alt_r; [apply ev_range_no; lia|]. apply ev_str_no, (strip_hd 95). cbn. lia. Qed.
Lemma version_hd t n : version_number t n -> exists c r, t = c :: r /\ PkgSpec.is_digit c.
Proof. intros (D & _). destruct (denotes_digits _ _ D) as (N & F & _). destruct t as [|c r]; [congruence|]. inversion F; subst. eauto. Qed.
Lemma ev_scalar sc t s : scalar_name sc t -> no_glue s -> no_version s -> exists cs, ev (PRef type_scalar) (t ++ s) (Match [Node type_scalar t cs] s) /\ parse_scalar_type (Node type_scalar t cs) = Done sc.
Proof.
  intros S G V. destruct S as [p t P|t n W|path name t1 n1 t2 n2 F V1 V2].
  - destruct (ev_primitive p t s P G) as (cs & R & E). exists [Node type_primitive t cs]. split; [|cbn [parse_scalar_type]; rewrite E; reflexivity]. apply ev_ref; [reflexivity|]. cbn [grammar]. apply ev_alt_r; [apply (primitive_versioned p); assumption|]. apply ev_alt_l, R.
  - destruct (ev_suffix_peg t n s W G) as (R & E & B). exists [Node type_void (name_of "void" ++ t) [Node type_bit_length_suffix t []]]. split; [|cbn [parse_scalar_type]; rewrite E; cbn [obind]; rewrite B; reflexivity]. apply ev_ref; [reflexivity|]. cbn [grammar].
    apply ev_alt_r; [apply ev_no_versioned; [apply (identifier_digits 118 (name_of "oid")); [unfold PkgSpec.is_letter; lia|words|apply (width_digits _ n), W]|exact G|exact V]|]. apply ev_alt_r; [apply no_start; reflexivity|]. apply ev_ref; [reflexivity|]. cbn [grammar]. rewrite <- app_assoc. apply (ev_seq _ _ _ [] (t ++ s) [Node type_bit_length_suffix t []] s); [apply ev_lit|exact R].
  - destruct (ev_version t1 n1 ([46] ++ t2 ++ s) V1 (point_glue _)) as (R1 & E1). destruct (ev_version t2 n2 s V2 G) as (R2 & E2). destruct (path ++ [name]) as [|m ms] eqn:EN; [destruct path; discriminate EN|]. inversion F as [|? ? I F']; subst.
    set (v := Node type_version_specifier (t1 ++ [46] ++ t2) [Node literal_integer_decimal t1 []; Node literal_integer_decimal t2 []]).
    set (t := dotted (m :: ms) ++ [46] ++ t1 ++ [46] ++ t2). set (cs := map (fun n => Node identifier_ n []) (m :: ms) ++ [v]). exists [Node type_versioned t cs]. split.
    + apply ev_ref; [reflexivity|]. cbn [grammar]. apply ev_alt_l. apply ev_ref; [reflexivity|]. cbn [grammar]. unfold t. rewrite dotted_flat, <- !app_assoc. unfold cs. cbn [map app].
      apply (ev_seq _ _ _ [Node identifier_ m []] (flat_map (fun n => 46 :: n) ms ++ [46] ++ t1 ++ [46] ++ t2 ++ s) (map (fun n => Node identifier_ n []) ms ++ [v]) s); [apply ev_identifier; [exact I|destruct ms; apply point_glue]|].
      destruct (version_hd _ _ V1) as (c & r & E & C). eapply ev_seq; [apply ev_names; [exact F'|apply point_glue|] |].
      * eapply ev_seq_no2; [apply (ev_lit ".")|]. rewrite E. cbn [app]. apply ev_no_identifier. unfold PkgSpec.is_letter, PkgSpec.is_digit in *. lia.
      * apply (ev_seq _ _ _ [] (t1 ++ [46] ++ t2 ++ s) [v] s); [apply (ev_lit ".")|]. apply (ev_ref_at _ _ (t1 ++ [46] ++ t2)); [reflexivity|rewrite <- !app_assoc; reflexivity|]. cbn [grammar]. apply (ev_seq _ _ _ [Node literal_integer_decimal t1 []] ([46] ++ t2 ++ s) [Node literal_integer_decimal t2 []] s); [exact R1|]. apply (ev_seq _ _ _ [] (t2 ++ s) [Node literal_integer_decimal t2 []] s); [apply (ev_lit ".")|exact R2].
    + cbn [parse_scalar_type]. unfold cs. rewrite parse_names, <- EN. cbn [app]. unfold v. cbn [parse_versioned tree_text]. rewrite E1, E2. cbn [of_option obind]. rewrite rev_app_distr. cbn [rev app]. rewrite rev_involutive. reflexivity.
Qed.
(** No length of an array follows *)
Definition no_bracket (s : text) : Prop := exists w r, s = w ++ r /\ blank w /\ no_blank r /\ hd_not [91] r.
Lemma ev_no_array t cs s : ev (PRef type_scalar) (t ++ s) (Match [Node type_scalar t cs] s) -> no_bracket s -> ev (PRef type_array) (t ++ s) NoMatch.
Proof.
  intros R (w & r & -> & W & B & H). apply ev_ref_no. cbn [grammar]. repeat apply ev_alt_r; apply ev_ref_no; cbn [grammar]; (eapply ev_seq_no2; [exact R|]); (eapply ev_seq_no2; [apply ev_ws_opt; [exact W|exact B]|]); apply ev_seq_no, ev_str_no, strip_hd, H.
Qed.
Lemma ev_dtype_scalar sc t s : scalar_name sc t -> no_glue s -> no_version s -> no_bracket s -> exists cs, ev (PRef dtype_) (t ++ s) (Match [Node dtype_ t [Node type_scalar t cs]] s) /\ parse_scalar_type (Node type_scalar t cs) = Done sc.
Proof.
  intros S G V B. destruct (ev_scalar sc t s S G V) as (cs & R & E). exists cs. split; [|exact E]. apply ev_ref; [reflexivity|]. cbn [grammar]. apply ev_alt_r; [apply (ev_no_array t cs); assumption|exact R].
Qed.
Lemma ev_no_dtype x : ev (PRef type_scalar) x NoMatch -> ev (PRef dtype_) x NoMatch.
Proof. intro R. apply ev_ref_no. cbn [grammar]. apply ev_alt_r; [|exact R]. apply ev_ref_no. cbn [grammar]. repeat apply ev_alt_r; apply ev_ref_no; cbn [grammar]; apply ev_seq_no, R. Qed.
(** What follows a word of an expression *)
Definition behind_word (s : text) : Prop := exists w r, s = w ++ r /\ blank w /\ no_blank r /\ no_glue r /\ hd_not [91] r.
Lemma blank_glue w r : blank w -> no_glue r -> no_glue (w ++ r).
Proof. intros W G. destruct w as [|c w]; [exact G|]. apply space_glue. split; [exact W|discriminate]. Qed.
Lemma behind_glue s : behind_word s -> no_glue s.
Proof. intros (w & r & -> & W & _ & G & _). apply blank_glue; assumption. Qed.
Lemma behind_bracket s : behind_word s -> no_bracket s.
Proof. intros (w & r & E & W & B & _ & H). exists w, r. auto. Qed.
Lemma glue_hd cs s : no_glue s -> Forall word_char cs -> hd_not cs s.
Proof. destruct s as [|c s]; [intros; exact Logic.I|]. cbn. intros G F I. rewrite Forall_forall in F. apply G, F, I. Qed.
Lemma ev_no_kind r : no_glue r -> ev (PRef type_primitive_name) r NoMatch.
Proof. intro G. apply ev_ref_no. cbn [grammar]. repeat apply ev_alt_r; apply ev_ref_no; cbn [grammar]; apply ev_seq_no, ev_str_no, strip_hd, glue_hd; (exact G || words). Qed.
(** The word, when followed by blanks and a primitive type *)
Lemma ev_no_mode (k : string) n s : Forall word_char (name_of k) -> Forall word_char n -> behind_word s -> 
  ev (lit k ~~ ws)%peg (n ++ s) NoMatch \/ exists r, ev (lit k ~~ ws)%peg (n ++ s) (Match [] r) /\ ev (PRef type_primitive_name) r NoMatch.
Proof.
  intros K N (w & r & -> & W & B & G & _). pose proof (blank_glue w r W G) as GW. destruct (strip (name_of k) (n ++ w ++ r)) as [x|] eqn:E; [|left; apply ev_seq_no, ev_str_no, E].
  destruct (strip_word _ _ _ _ K GW E) as (y & -> & ->). apply Forall_app in N as (_ & N). rewrite <- app_assoc. destruct y as [|c y].
  - destruct w as [|c w].
    + left. eapply ev_seq_no2; [apply ev_lit|]. apply ev_no_ws, B.
    + right. exists r. split; [|apply ev_no_kind, G]. apply (ev_seq _ _ _ [] ((c :: w) ++ r) [] r); [apply ev_lit|]. apply ev_ws; [split; [exact W|discriminate]|exact B].
  - left. eapply ev_seq_no2; [apply ev_lit|]. apply ev_no_ws. inversion N as [|? ? C ?]; subst. cbn. unfold word_char, PkgSpec.is_letter, PkgSpec.is_digit in C. lia.
Qed.
(** A word that does not start with a keyword *)
Lemma ev_not_a_word (k : string) n s : In (name_of k) (map name_of ["bool"; "utf8"; "byte"; "true"; "false"]%string) -> Forall word_char (name_of k) -> ~ starts_like_a_keyword n -> no_glue s -> ev (lit k) (n ++ s) NoMatch.
Proof. intros I K N G. apply ev_str_no. destruct (strip (name_of k) (n ++ s)) as [x|] eqn:E; [|reflexivity]. destruct (strip_word _ _ _ _ K G E) as (y & -> & _). destruct N. apply sk_word, I. Qed.
Lemma ev_not_a_type (k : string) n s : In (name_of k) (map name_of ["uint"; "int"; "float"; "void"]%string) -> Forall word_char (name_of k) -> ~ starts_like_a_keyword n -> no_glue s -> ev (lit k ~~ type_bit_length_suffix)%peg (n ++ s) NoMatch.
Proof.
  intros I K N G. destruct (strip (name_of k) (n ++ s)) as [x|] eqn:E; [|apply ev_seq_no, ev_str_no, E]. destruct (strip_word _ _ _ _ K G E) as (y & -> & _). rewrite <- app_assoc. eapply ev_seq_no2; [apply ev_lit|]. apply ev_ref_no. cbn [grammar]. apply ev_seq_no, ev_range_no. destruct y as [|c y].
  - cbn [app]. destruct s as [|c s]; [exact Logic.I|]. cbn [no_glue] in G. unfold word_char, PkgSpec.is_digit in G. lia.
  - cbn [app]. intro C. apply N, sk_type; [exact I|exact C].
Qed.
Lemma name_no_primitive n s : Forall word_char n -> ~ starts_like_a_keyword n -> behind_word s -> ev (PRef type_primitive) (n ++ s) NoMatch.
Proof.
  intros W K B. pose proof (behind_glue s B) as G.
  assert (NK : ev (PRef type_primitive_name) (n ++ s) NoMatch).
  { apply ev_ref_no. cbn [grammar]. repeat apply ev_alt_r; apply ev_ref_no; cbn [grammar]; apply ev_not_a_type; try assumption; try words; cbn; tauto. }
  apply ev_ref_no. cbn [grammar]. apply ev_alt_r.
  { apply ev_ref_no. cbn [grammar]. destruct (ev_no_mode "truncated" n s ltac:(words) W B) as [R|(r & R & R')].
    - destruct (strip (name_of "truncated") (n ++ s)) as [x|] eqn:E; [|apply ev_seq_no, ev_str_no, E]. pose proof (strip_right _ _ _ E) as E'. rewrite E' in *. eapply ev_seq_no2; [apply ev_lit|]. destruct (ev_total ws x) as ([ts y| |] & O); [|apply ev_seq_no, O|destruct O; congruence].
      exfalso. pose proof (ev_same _ _ _ _ R (ev_seq _ _ _ _ _ _ _ (ev_lit "truncated" x) O)) as X. discriminate X.
    - apply ev_seq_inv in R as (us & mid & vs & R1 & R2 & _). eapply ev_seq_no2; [exact R1|]. eapply ev_seq_no2; [exact R2|exact R']. }
  apply ev_alt_r. { apply ev_ref_no. cbn [grammar]. destruct (ev_no_mode "saturated" n s ltac:(words) W B) as [R|(r & R & R')]; [eapply ev_seq_no2; [apply ev_opt_no, R|exact NK]|]. eapply ev_seq_no2; [apply ev_opt, R|exact R']. }
  apply ev_alt_r; [apply ev_ref_no, ev_ref_no; cbn [grammar]; apply ev_not_a_word; try assumption; try words; cbn; tauto|].
  apply ev_alt_r; apply ev_ref_no; cbn [grammar]; apply ev_not_a_word; try assumption; try words; cbn; tauto.
Qed.
Lemma name_no_scalar n s : identifier n -> ~ starts_like_a_keyword n -> behind_word s -> no_version s -> ev (PRef type_scalar) (n ++ s) NoMatch.
Proof.
  intros I K B V. pose proof (behind_glue s B) as G. apply ev_ref_no. cbn [grammar]. apply ev_alt_r; [apply ev_no_versioned; assumption|]. apply ev_alt_r; [apply name_no_primitive; [apply identifier_words, I|exact K|exact B]|]. apply ev_ref_no. cbn [grammar]. apply ev_not_a_type; try assumption; try words; cbn; tauto.
Qed.
Definition letters : list N := [95; 65;66;67;68;69;70;71;72;73;74;75;76;77;78;79;80;81;82;83;84;85;86;87;88;89;90; 97;98;99;100;101;102;103;104;105;106;107;108;109;110;111;112;113;114;115;116;117;118;119;120;121;122].
Lemma letters_all c : PkgSpec.is_letter c \/ c = 95 -> In c letters.
Proof. unfold PkgSpec.is_letter. intro C. cbn [letters In]. lia. Qed.
Definition decimals : list N := [48;49;50;51;52;53;54;55;56;57].
Lemma decimals_all c : PkgSpec.is_digit c -> In c decimals.
Proof. unfold PkgSpec.is_digit. intro C. cbn [decimals In]. lia. Qed.
Lemma no_start_in p l c s : forallb (never p) l = true -> In c l -> ev p (c :: s) NoMatch.
Proof. intros F I. apply no_start. rewrite forallb_forall in F. apply F, I. Qed.
Lemma name_no_literal n s : identifier n -> ~ starts_like_a_keyword n -> no_glue s -> ev (PRef literal) (n ++ s) NoMatch.
Proof.
  intros I K G. apply ev_ref_no. cbn [grammar]. assert (L : forall r, forallb (never (PRef r)) letters = true -> ev (PRef r) (n ++ s) NoMatch) by (intros r F; destruct I as (c & u & -> & C & _); cbn [app]; apply (no_start_in _ letters); [exact F|apply letters_all, C]).
  do 4 (apply ev_alt_r; [apply L; lazy; reflexivity|]). apply ev_ref_no. cbn [grammar]. apply ev_alt_r; apply ev_ref_no; cbn [grammar]; apply ev_not_a_word; try assumption; try words; cbn; tauto.
Qed.
(** The first kind of atom is not written with these first characters *)
Lemma ev_name n s : identifier n -> ~ starts_like_a_keyword n -> behind_word s -> no_version s -> ev (PRef expression_atom) (n ++ s) (Match [Node expression_atom n [Node identifier_ n []]] s).
Proof.
  intros I K B V. apply ev_ref; [reflexivity|]. cbn [grammar]. apply ev_alt_r; [destruct I as (c & u & -> & C & _); cbn [app]; apply (no_start_in _ letters); [lazy; reflexivity|apply letters_all, C]|]. apply ev_alt_r; [apply ev_no_dtype, name_no_scalar; assumption|]. apply ev_alt_r; [apply name_no_literal; [exact I|exact K|apply behind_glue, B]|]. apply ev_identifier; [exact I|apply behind_glue, B].
Qed.
Lemma ev_truth (b : bool) s : no_glue s -> no_version s -> let t := name_of (if b then "true" else "false") in
  ev (PRef expression_atom) (t ++ s) (Match [Node expression_atom t [Node literal t [Node literal_boolean t [Node (if b then literal_boolean_true else literal_boolean_false) t []]]]] s).
Proof.
  intros G V t. assert (I : identifier t) by (destruct b; [exists 116, (name_of "rue")|exists 102, (name_of "alse")]; (split; [reflexivity|]; split; [unfold PkgSpec.is_letter; lia|words])).
  apply ev_ref; [reflexivity|]. cbn [grammar]. apply ev_alt_r; [destruct b; apply no_start; reflexivity|]. apply ev_alt_r.
  - apply ev_no_dtype, ev_ref_no. cbn [grammar]. apply ev_alt_r; [apply ev_no_versioned; assumption|]. destruct b.
    + apply ev_alt_r; [|apply no_start; reflexivity]. apply ev_ref_no. cbn [grammar]. apply ev_alt_r; [apply ev_ref_no, ev_seq_no, ev_str_no; reflexivity|]. repeat apply ev_alt_r; apply no_start; reflexivity.
    + apply ev_alt_r; [|apply no_start; reflexivity]. apply ev_ref_no. cbn [grammar]. apply ev_alt_r; [apply no_start; reflexivity|]. apply ev_alt_r; [|repeat apply ev_alt_r; apply no_start; reflexivity]. apply ev_ref_no. cbn [grammar]. eapply ev_seq_no2; [apply ev_opt_no, ev_seq_no, ev_str_no; reflexivity|]. apply ev_ref_no. cbn [grammar]. repeat apply ev_alt_r; apply ev_ref_no, ev_seq_no, ev_str_no; reflexivity.
  - apply ev_alt_l. apply ev_ref; [reflexivity|]. cbn [grammar]. do 4 (apply ev_alt_r; [destruct b; apply no_start; reflexivity|]). apply ev_ref; [reflexivity|]. cbn [grammar]. destruct b.
    + apply ev_alt_l. apply ev_ref; [reflexivity|]. apply ev_lit.
    + apply ev_alt_r; [apply no_start; reflexivity|]. apply ev_ref; [reflexivity|]. apply ev_lit.
Qed.
