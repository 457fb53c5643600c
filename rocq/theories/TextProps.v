(** C87, C88: numbers and strings in DSDL files. *)
From Coq Require Import QArith Qpower Qcanon String.
From Verif Require Import Base TextModel TextSpec TextProofs.
Open Scope N_scope.
Ltac Zify.zify_post_hook ::= Z.div_mod_to_equations.

(** * C87: the number that a literal denotes *)

(** Integer literals of all four bases. *)
Theorem C87_integer : forall k text n, integer_literal k text n -> parse_integer_literal k text = Ok n.
Proof. intros k text n [x t ds _ H|x t ds _ H|x t ds _ H|t ds H]; cbn [parse_integer_literal skipn]; [apply behind_value|apply behind_value|apply behind_value|apply numeral_value]; (exact H || lia). Qed.
Print Assumptions C87_integer.
Example C87_integer_witness : integer_literal Hexadecimal (str "0x_B3_fa") 0xb3fa /\ integer_literal Decimal (str "65_536") 65536.
Proof.
  split.
  - apply (il_hexadecimal 120 (str "_B3_fa") [11; 3; 15; 10]); [auto|]. right. exists (str "B3_fa"). split; [reflexivity|].
    apply (nu_more 16 (str "B3_f") [11; 3; 15] 97 10); [|apply (di_lower 16 10); lia]. apply (nu_underscore 16 (str "B3") [11; 3] 102 15); [|apply (di_lower 16 15); lia]. apply (nu_more 16 (str "B") [11] 51 3); [|apply (di_decimal 16 3); lia]. apply nu_digit. apply (di_upper 16 11); lia.
  - apply (il_decimal (str "65_536") [6; 5; 5; 3; 6]).
    apply (nu_more 10 (str "65_53") [6; 5; 5; 3] 54 6); [|apply (di_decimal 10 6); lia]. apply (nu_more 10 (str "65_5") [6; 5; 5] 51 3); [|apply (di_decimal 10 3); lia]. apply (nu_underscore 10 (str "65") [6; 5] 53 5); [|apply (di_decimal 10 5); lia]. apply (nu_more 10 (str "6") [6] 53 5); [|apply (di_decimal 10 5); lia]. apply nu_digit. apply (di_decimal 10 6); lia.
Qed.
(** Literals with a point, if there are digits before it and no underscores behind it. *)
Theorem C87_point_partial : forall p q, point_literal p q -> plain p -> parse_real_point_notation p = Some (Q2Qc q).
Proof. exact point_right. Qed.
Print Assumptions C87_point_partial.
Lemma ones_ex c d : c = 48 + d -> d < 10 -> numeral 10 [c] [d].
Proof. intros -> H. apply nu_digit, di_decimal; lia. Qed.
Example C87_point_witness : point_literal (PointFraction (str "1") (str "25")) (decimal [1] [2; 5]) /\ plain (PointFraction (str "1") (str "25")) /\ (decimal [1%N] [2%N; 5%N] == 5 # 4)%Q.
Proof.
  split; [apply pl_both; [apply ones_ex; [reflexivity|lia]|]|split; [intros [H|[H|[] ] ]; discriminate H|reflexivity] ].
  apply (nu_more 10 (str "2") [2] 53 5); [apply ones_ex; [reflexivity|lia]|apply (di_decimal 10 5); lia].
Qed.
(** The code violates it: an underscore behind the point counts as a digit, so that 1.5_0 is 1.05. *)
Theorem C87_underscore_refuted : exists p q, point_literal p q /\ parse_real_point_notation p <> Some (Q2Qc q) /\ parse_real_point_notation p = Some (Q2Qc (105 # 100)) /\ (q == 15 # 10)%Q.
Proof.
  exists (PointFraction (str "1") (str "5_0")), (decimal [1] [5; 0]). split.
  - apply pl_both; [apply ones_ex; [reflexivity|lia]|]. apply (nu_underscore 10 (str "5") [5] 48 0); [apply ones_ex; [reflexivity|lia]|apply (di_decimal 10 0); lia].
  - assert (E : parse_real_point_notation (PointFraction (str "1") (str "5_0")) = Some (Q2Qc (105 # 100))) by (vm_compute; f_equal; apply Qc_is_canon; reflexivity). split; [|split; [exact E|reflexivity] ].
    rewrite E. intro H. injection H as H. vm_compute in H. discriminate H.
Qed.
Print Assumptions C87_underscore_refuted.
(** The code violates it: it refuses every literal that starts with a point. *)
Theorem C87_leading_point_refuted : (forall text, parse_real_point_notation (Fraction text) = None) /\ exists text q, point_literal (Fraction text) q.
Proof. split; [reflexivity|]. exists (str "5"), (decimal [] [5]). apply pl_fraction, ones_ex; [reflexivity|lia]. Qed.
Print Assumptions C87_leading_point_refuted.
(** Literals with an exponent. *)
Theorem C87_exponent_partial : forall before q sign text ds, mantissa before q -> plain_mantissa before -> numeral 10 text ds ->
  parse_real_exponent_notation before sign text = Ok (Some (Q2Qc (q * Qpower (10 # 1) (if N.eqb sign 45 then - Z.of_N (number 10 ds) else Z.of_N (number 10 ds))))).
Proof. exact mantissa_right. Qed.
Print Assumptions C87_exponent_partial.
Example C87_exponent_witness : mantissa (inl (PointFraction (str "1") (str "2"))) (decimal [1] [2]) /\ plain_mantissa (inl (PointFraction (str "1") (str "2"))) /\ numeral 10 (str "3") [3].
Proof. split; [apply pl_both; (apply ones_ex; [reflexivity|lia])|]. split; [intros [H|[] ]; discriminate H|apply ones_ex; [reflexivity|lia] ]. Qed.

(** * C88: strings *)

(** A string literal denotes what the table of escape sequences says, and everything else is refused, if it contains no plus sign. *)
Theorem C88_strings_partial : forall text out, ~ In 43 text -> (unescape_string text = Some out <-> unescapes text out).
Proof. intros text out N. split; [intro H; apply (unescape_sound (length text)); auto|apply unescape_complete]. Qed.
Print Assumptions C88_strings_partial.
Theorem C88_accepts : forall text out, unescapes text out -> unescape_string text = Some out.
Proof. exact unescape_complete. Qed.
Print Assumptions C88_accepts.
Example C88_witness : unescapes (str "oh,\u0020hi\n\U0001f63A") (str "oh, hi" ++ [10; 0x1f63a]) /\ ~ In 43 (str "oh,\u0020hi\n\U0001f63A").
Proof.
  split; [|cbv; intuition discriminate]. cbn -[N.mul]. do 3 (apply un_plain; [discriminate|]). apply (un_u4 (str "0020") 0x20 (str "hi\n\U0001f63A")).
  - reflexivity.
  - exists [0; 0; 2; 0]. split; [|reflexivity]. repeat constructor; first [apply (di_decimal 16 0); lia|apply (di_decimal 16 2); lia].
  - left. lia.
  - cbn. do 2 (apply un_plain; [discriminate|]). apply un_simple; [cbn; tauto|]. apply (un_u8 (str "0001f63A") 0x1f63a []).
    + reflexivity.
    + exists [0; 0; 0; 1; 15; 6; 3; 10]. split; [|reflexivity]. repeat constructor; first [apply (di_decimal 16 0); lia|apply (di_decimal 16 1); lia|apply (di_lower 16 15); lia|apply (di_decimal 16 6); lia|apply (di_decimal 16 3); lia|apply (di_upper 16 10); lia].
    + right. lia.
    + apply un_nil.
Qed.
(** The code violates it: an escape sequence may have a plus sign in place of its first digit. *)
Theorem C88_plus_refuted : exists text out, unescape_string text = Some out /\ forall out', ~ unescapes text out'.
Proof.
  exists (str "\u+041"), (str "A"). split; [reflexivity|]. intros out' H. cbn in H. remember [92; 117; 43; 48; 52; 49] as t eqn:Et. destruct H as [|c t o Hc|c x t o Hs|ds n t o L Hh|ds n t o L Hh].
  - discriminate Et.
  - injection Et as -> _. destruct (Hc eq_refl).
  - injection Et as -> _. unfold simple_escape in Hs. cbn in Hs. repeat (destruct Hs as [Hs|Hs]; [discriminate Hs|]). destruct Hs.
  - destruct ds as [|a ds]; [discriminate L|]. injection Et as -> _. destruct Hh as (xs & F & _). inversion F as [|? d ? ? D]. apply digit_not in D. lia.
  - discriminate Et.
Qed.
Print Assumptions C88_plus_refuted.
(** A printed string, read again, is the same string. *)
Theorem C88_display : forall s, unescape_string (display_string s) = Some s.
Proof. intro s. apply unescape_complete, display_right. Qed.
Print Assumptions C88_display.
