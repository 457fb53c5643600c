(** Proofs about literals. *)
From Coq Require Import QArith Qpower Qcanon.
From Verif Require Import Base TextModel TextSpec.
Open Scope N_scope.
Ltac Zify.zify_post_hook ::= Z.div_mod_to_equations.

Lemma digit_right base c d : base <= 16 -> digit_value base c = Some d <-> is_digit base c d.
Proof.
  intro B. unfold digit_value. split.
  - intro H. destruct ((48 <=? c) && (c <=? 57)) eqn:E1.
    + destruct (c - 48 <? base) eqn:E; [injection H as <-|discriminate H]. replace c with (48 + (c - 48)) at 1 by lia. apply di_decimal; lia.
    + destruct ((97 <=? c) && (c <=? 122)) eqn:E2.
      * destruct (c - 87 <? base) eqn:E; [injection H as <-|discriminate H]. replace c with (97 + ((c - 87) - 10)) at 1 by lia. apply di_lower; lia.
      * destruct ((65 <=? c) && (c <=? 90)) eqn:E3; [|discriminate H].
        destruct (c - 55 <? base) eqn:E; [injection H as <-|discriminate H]. replace c with (65 + ((c - 55) - 10)) at 1 by lia. apply di_upper; lia.
  - intros [x H K|x H K|x H K].
    + replace ((48 <=? 48 + x) && (48 + x <=? 57)) with true by lia. replace (48 + x - 48) with x by lia. apply N.ltb_lt in K. rewrite K. reflexivity.
    + replace ((48 <=? 97 + (x - 10)) && (97 + (x - 10) <=? 57)) with false by lia. replace ((97 <=? 97 + (x - 10)) && (97 + (x - 10) <=? 122)) with true by lia. replace (97 + (x - 10) - 87) with x by lia. apply N.ltb_lt in K. rewrite K. reflexivity.
    + replace ((48 <=? 65 + (x - 10)) && (65 + (x - 10) <=? 57)) with false by lia. replace ((97 <=? 65 + (x - 10)) && (65 + (x - 10) <=? 122)) with false by lia. replace ((65 <=? 65 + (x - 10)) && (65 + (x - 10) <=? 90)) with true by lia. replace (65 + (x - 10) - 55) with x by lia. apply N.ltb_lt in K. rewrite K. reflexivity.
Qed.
Lemma digit_not base c d : is_digit base c d -> c <> 95 /\ c <> 43 /\ c <> 46 /\ c <> 92.
Proof. intros [x H K|x H K|x H K]; lia. Qed.

Lemma number_app base a b : number base (a ++ b) = number base a * base ^ N.of_nat (length b) + number base b.
Proof.
  induction a as [|x a IH]; [reflexivity|]. cbn [app number]. rewrite IH, app_length, Nat2N.inj_add, N.pow_add_r. lia.
Qed.
Lemma number_one base d : number base [d] = d.
Proof. cbn. lia. Qed.

Lemma parse_digits_app base a : forall v b, parse_digits base v (a ++ b) = match parse_digits base v a with Ok v' => parse_digits base v' b | Panic => Panic end.
Proof.
  induction a as [|c a IH]; intros v b; [reflexivity|]. cbn [app parse_digits]. destruct (c =? 95); [apply IH|]. destruct (digit_value base c); [apply IH|reflexivity].
Qed.
Lemma parse_digits_one base v c d : base <= 16 -> is_digit base c d -> parse_digits base v [c] = Ok (v * base + d).
Proof. intros B H. cbn [parse_digits]. destruct (digit_not _ _ _ H) as (N95 & _). rewrite (proj2 (N.eqb_neq c 95) N95). rewrite (proj2 (digit_right _ _ _ B) H). reflexivity. Qed.
Lemma parse_digits_skip base v r : parse_digits base v (95 :: r) = parse_digits base v r.
Proof. reflexivity. Qed.
Lemma numeral_right base text ds : base <= 16 -> numeral base text ds -> forall v, parse_digits base v text = Ok (v * base ^ N.of_nat (length ds) + number base ds).
Proof.
  intros B H. induction H as [c d H|text ds c d H IH Hd|text ds c d H IH Hd]; intro v.
  - rewrite (parse_digits_one _ _ _ _ B H), number_one. cbn [length]. change (N.of_nat 1) with 1. rewrite N.pow_1_r. reflexivity.
  - rewrite parse_digits_app, IH, (parse_digits_one _ _ _ _ B Hd), number_app, app_length, Nat2N.inj_add, N.pow_add_r, number_one. cbn [length]. change (N.of_nat 1) with 1. rewrite N.pow_1_r. f_equal. lia.
  - rewrite parse_digits_app, IH. rewrite parse_digits_skip, (parse_digits_one _ _ _ _ B Hd), number_app, app_length, Nat2N.inj_add, N.pow_add_r, number_one. cbn [length]. change (N.of_nat 1) with 1. rewrite N.pow_1_r. f_equal. lia.
Qed.
Lemma numeral_value base text ds : base <= 16 -> numeral base text ds -> parse_digits base 0 text = Ok (number base ds).
Proof. intros B H. rewrite (numeral_right _ _ _ B H). f_equal. Qed.
Lemma behind_value base text ds : base <= 16 -> behind_prefix base text ds -> parse_digits base 0 text = Ok (number base ds).
Proof. intros B [H|(t & -> & H)]; [|cbn [parse_digits]; change (95 =? 95) with true; cbv iota]; apply numeral_value; assumption. Qed.

Lemma numeral_first base text ds : numeral base text ds -> exists c r d, text = c :: r /\ is_digit base c d.
Proof.
  induction 1 as [c d H|text ds c d H (c0 & r & d0 & -> & H0) Hd|text ds c d H (c0 & r & d0 & -> & H0) Hd].
  - exists c, [], d. auto.
  - exists c0, (r ++ [c]), d0. auto.
  - exists c0, (r ++ [95; c]), d0. auto.
Qed.
Lemma numeral_bigint text ds : numeral 10 text ds -> parse_bigint text = Some (number 10 ds).
Proof.
  intro H. destruct (numeral_first _ _ _ H) as (c & r & d & -> & Hc). destruct (digit_not _ _ _ Hc) as (N95 & N43 & _). unfold parse_bigint.
  assert (E : match c :: r with 43 :: r0 => r0 | _ => c :: r end = c :: r) by (destruct c as [|p]; [reflexivity|do 6 (destruct p as [p|p|]; try reflexivity); exfalso; apply N43; reflexivity]). rewrite E.
  rewrite (proj2 (N.eqb_neq c 95) N95). rewrite (numeral_value 10 (c :: r) ds ltac:(lia) H). reflexivity.
Qed.
Lemma fraction_bigint text : parse_bigint (46 :: text) = None.
Proof. reflexivity. Qed.
Lemma numeral_length base text ds : numeral base text ds -> ~ In 95 text -> length text = length ds.
Proof.
  induction 1 as [c d H|text ds c d H IH Hd|text ds c d H IH Hd]; intro N.
  - reflexivity.
  - rewrite !app_length, IH; [reflexivity|]. intro X. apply N, in_or_app. auto.
  - exfalso. apply N, in_or_app. right. left. reflexivity.
Qed.
Lemma numeral_ne base text ds : numeral base text ds -> ds <> [].
Proof. destruct 1; [discriminate| |]; intro E; apply app_eq_nil in E; destruct E; discriminate. Qed.

Lemma pow10 n : (Z.of_N (10 ^ n) # 1 == Qpower (10 # 1) (Z.of_N n))%Q.
Proof.
  induction n as [|n IH] using N.peano_ind; [reflexivity|]. rewrite N.pow_succ_r', N2Z.inj_mul, N2Z.inj_succ, <- Z.add_1_l, Qpower_plus by discriminate. rewrite <- IH. unfold Qeq. cbn. lia.
Qed.
Lemma pow10_nz n : ~ (Qpower (10 # 1) n == 0)%Q.
Proof. apply Qpower_not_0. discriminate. Qed.
Lemma decimal_split d1 d2 : (decimal d1 d2 == (Z.of_N (number 10 d1) # 1) + (Z.of_N (number 10 d2) # 1) / Qpower (10 # 1) (Z.of_nat (length d2)))%Q.
Proof.
  unfold decimal. rewrite number_app. assert (E : (Z.of_N (number 10 d1 * 10 ^ N.of_nat (length d2) + number 10 d2) # 1 == (Z.of_N (number 10 d1) # 1) * (Z.of_N (10 ^ N.of_nat (length d2)) # 1) + (Z.of_N (number 10 d2) # 1))%Q) by (unfold Qeq; cbn; lia).
  rewrite E, pow10, nat_N_Z. field. apply pow10_nz.
Qed.
Lemma point_right p q : point_literal p q -> plain p -> parse_real_point_notation p = Some (Q2Qc q).
Proof.
  intros [text ds H|text ds H|t1 d1 t2 d2 H1 H2] P; cbn [plain parse_real_point_notation] in *.
  - destruct P.
  - rewrite (numeral_bigint _ _ H). f_equal. apply Qc_is_canon. cbn [this Q2Qc]. rewrite !Qred_correct, decimal_split. cbn [number length]. unfold Qdiv. change (0 # 1)%Q with 0%Q. cbn. ring.
  - rewrite (numeral_bigint _ _ H1), (numeral_bigint _ _ H2). f_equal. apply Qc_is_canon. unfold Qcplus. cbn [this Q2Qc]. rewrite !Qred_correct, decimal_split, (numeral_length _ _ _ H2 P), pow10, nat_N_Z. reflexivity.
Qed.
Lemma mantissa_right before q sign text ds : mantissa before q -> plain_mantissa before -> numeral 10 text ds ->
  parse_real_exponent_notation before sign text = Ok (Some (Q2Qc (q * Qpower (10 # 1) (if N.eqb sign 45 then - Z.of_N (number 10 ds) else Z.of_N (number 10 ds))))).
Proof.
  intros M P D. unfold parse_real_exponent_notation. rewrite (numeral_value 10 text ds ltac:(lia) D). destruct before as [p|t]; cbn [mantissa plain_mantissa] in *.
  - rewrite (point_right _ _ M P). f_equal. f_equal. apply Qc_is_canon. unfold Qcmult. cbn [this Q2Qc]. rewrite !Qred_correct. reflexivity.
  - destruct M as (ds' & H & ->). rewrite (numeral_value 10 t ds' ltac:(lia) H). f_equal. f_equal. apply Qc_is_canon. unfold Qcmult. cbn [this Q2Qc]. rewrite !Qred_correct. reflexivity.
Qed.

(** ** Strings *)

Lemma from_hex_right text : forall v n, from_hex v text = Some n <-> exists ds, Forall2 (is_digit 16) text ds /\ n = v * 16 ^ N.of_nat (length ds) + number 16 ds.
Proof.
  induction text as [|c r IH]; intros v n; cbn [from_hex].
  - split.
    + intro H. injection H as <-. exists []. split; [constructor|]. cbn. lia.
    + intros (ds & H & ->). inversion H. cbn. f_equal. lia.
  - split.
    + destruct (digit_value 16 c) as [d|] eqn:E; [|discriminate]. intro H. apply IH in H. destruct H as (ds & H & ->). exists (d :: ds). split.
      * constructor; [apply digit_right; [lia|exact E]|exact H].
      * cbn [number length]. rewrite Nat2N.inj_succ, N.pow_succ_r'. lia.
    + intros (ds & H & ->). inversion H as [|c' d r' ds' Hd Hr]. subst. rewrite (proj2 (digit_right 16 c d ltac:(lia)) Hd). apply IH. exists ds'. split; [exact Hr|]. cbn [number length]. rewrite Nat2N.inj_succ, N.pow_succ_r'. lia.
Qed.
Lemma no_plus c r : c <> 43 -> from_str_radix_16 (c :: r) = from_hex 0 (c :: r).
Proof. intro H. unfold from_str_radix_16. destruct c as [|p]; [reflexivity|]. do 6 (destruct p as [p|p|]; try reflexivity). destruct (H eq_refl). Qed.
Lemma hex_right text n : text <> [] -> ~ In 43 text -> from_str_radix_16 text = Some n <-> hexadecimal text n.
Proof.
  intros Ne N. destruct text as [|c r]; [destruct (Ne eq_refl)|]. rewrite no_plus by (intro E; apply N; left; exact E). rewrite from_hex_right. unfold hexadecimal. split; intros (ds & H & E); exists ds; (split; [exact H|]); lia.
Qed.
Lemma hex_no_plus text n : hexadecimal text n -> ~ In 43 text.
Proof. intros (ds & H & _). induction H as [|c d r ds Hd H IH]; [intros []|]. intros [E|E]; [|exact (IH E)]. subst c. apply digit_not in Hd. lia. Qed.
Lemma char_right n x : from_u32 n = Some x <-> x = n /\ is_char n.
Proof. unfold from_u32, is_char. destruct ((n <? 0xd800) || ((0xe000 <=? n) && (n <? 0x110000))) eqn:E; split; [intro H; injection H as <-; lia|intros (-> & _); reflexivity|discriminate|intros (_ & H); lia]. Qed.

(** the whole of a Unicode escape sequence *)
Lemma unicode_run w : forall ds coll text, ds <> [] -> (length coll + length ds = w)%nat ->
  unescape_from (Unicode w coll) (ds ++ text) =
  match from_str_radix_16 (coll ++ ds) with
  | Some n => match from_u32 n with Some x => match unescape_from Idle text with Some t => Some (x :: t) | None => None end | None => None end
  | None => None
  end.
Proof.
  induction ds as [|c ds IH]; intros coll text Ne L; [destruct (Ne eq_refl)|]. cbn [app unescape_from unescape_step]. unfold unicode_step. rewrite app_length. cbn [length] in *. destruct ds as [|c2 ds].
  - replace (length coll + 1 =? w)%nat with true by (cbn [length] in L; lia). destruct (from_str_radix_16 (coll ++ [c])) as [n|]; [|reflexivity]. destruct (from_u32 n); reflexivity.
  - replace (length coll + 1 =? w)%nat with false by (cbn [length] in L; lia). rewrite IH; [|discriminate|rewrite app_length; cbn [length] in *; lia]. rewrite <- app_assoc. cbn [app]. destruct (from_str_radix_16 _) as [n|]; [|reflexivity]. destruct (from_u32 n); [|reflexivity]. destruct (unescape_from Idle text); reflexivity.
Qed.
(** too few characters *)
Lemma unicode_short w : forall text coll, (length coll + length text < w)%nat -> unescape_from (Unicode w coll) text = None.
Proof.
  induction text as [|c r IH]; intros coll L; [reflexivity|]. cbn [unescape_from unescape_step]. unfold unicode_step. rewrite app_length. cbn [length] in *. replace (length coll + 1 =? w)%nat with false by lia. rewrite IH; [reflexivity|]. rewrite app_length. cbn [length]. lia.
Qed.

Lemma unescape_complete text out : unescapes text out -> unescape_string text = Some out.
Proof.
  unfold unescape_string. induction 1 as [|c text out H U IH|c x text out H U IH|ds n text out L H C U IH|ds n text out L H C U IH].
  - reflexivity.
  - cbn [unescape_from unescape_step]. rewrite (proj2 (N.eqb_neq c 92) H), IH. reflexivity.
  - unfold simple_escape in H. cbn in H. repeat (destruct H as [H|H]; [injection H as <- <-; cbn; rewrite IH; reflexivity|]). destruct H.
  - cbn [unescape_from unescape_step]. change (92 =? 92) with true. cbv iota. cbn [unescape_from]. change (unescape_step Backslash 117) with (Some (Unicode 4 [], @nil N)). cbv iota. rewrite unicode_run, app_nil_l; [|destruct ds; discriminate|exact L].
    rewrite (proj2 (hex_right ds n ltac:(destruct ds; discriminate) (hex_no_plus _ _ H)) H). rewrite (proj2 (char_right n n) (conj eq_refl C)), IH. reflexivity.
  - cbn [unescape_from unescape_step]. change (92 =? 92) with true. cbv iota. cbn [unescape_from]. change (unescape_step Backslash 85) with (Some (Unicode 8 [], @nil N)). cbv iota. rewrite unicode_run, app_nil_l; [|destruct ds; discriminate|exact L].
    rewrite (proj2 (hex_right ds n ltac:(destruct ds; discriminate) (hex_no_plus _ _ H)) H). rewrite (proj2 (char_right n n) (conj eq_refl C)), IH. reflexivity.
Qed.
Lemma option_same {A} (o : option A) : match o with Some t => Some t | None => None end = o.
Proof. destruct o; reflexivity. Qed.
Lemma unescape_sound k : forall text out, (length text <= k)%nat -> ~ In 43 text -> unescape_from Idle text = Some out -> unescapes text out.
Proof.
  induction k as [|k IH]; intros text out L N H; (destruct text as [|c text]; [injection H as <-; apply un_nil|]); cbn [length] in L; [lia|].
  cbn [unescape_from unescape_step] in H. destruct (N.eqb_spec c 92) as [->|Nc].
  - destruct text as [|c text]; [discriminate H|]. cbn [length] in L. cbn [app] in H. cbn [unescape_from unescape_step] in H. rewrite option_same in H.
    assert (Hs : forall x, match unescape_from Idle text with Some t => Some (x :: t) | None => None end = Some out -> simple_escape c x -> unescapes (92 :: c :: text) out).
    { intros x E S. destruct (unescape_from Idle text) as [t|] eqn:Et; [|discriminate E]. injection E as <-. apply un_simple; [exact S|]. apply IH; [lia| |exact Et]. intro X. apply N. right. right. exact X. }
    assert (Hu : forall w, (w = 4%nat /\ c = 117 \/ w = 8%nat /\ c = 85) -> unescape_from (Unicode w []) text = Some out -> unescapes (92 :: c :: text) out).
    { intros w W E. destruct (Nat.lt_ge_cases (length text) w) as [Ls|Ls]; [rewrite unicode_short in E by exact Ls; discriminate E|].
      rewrite <- (firstn_skipn w text) in E. assert (Lf : length (firstn w text) = w) by (rewrite firstn_length; lia). rewrite unicode_run, app_nil_l in E by (try (intro X; rewrite X in Lf; cbn in Lf; lia); exact Lf).
      assert (Nf : ~ In 43 (firstn w text)) by (intro X; apply N; right; right; rewrite <- (firstn_skipn w text); apply in_or_app; auto). assert (Ns : ~ In 43 (skipn w text)) by (intro X; apply N; right; right; rewrite <- (firstn_skipn w text); apply in_or_app; auto).
      destruct (from_str_radix_16 (firstn w text)) as [n|] eqn:En; [|discriminate E]. apply hex_right in En; [|intro X; rewrite X in Lf; cbn in Lf; lia|exact Nf]. destruct (from_u32 n) as [x|] eqn:Ex; [|discriminate E]. apply char_right in Ex. destruct Ex as (-> & C).
      destruct (unescape_from Idle (skipn w text)) as [t|] eqn:Et; [|discriminate E]. injection E as <-. apply IH in Et; [|rewrite skipn_length; lia|exact Ns]. rewrite <- (firstn_skipn w text).
      destruct W as [(-> & ->)|(-> & ->)]; [apply un_u4|apply un_u8]; assumption. }
    destruct (N.eqb_spec c 92) as [->|]; [apply (Hs 92); [exact H|cbn; tauto]|]. destruct (N.eqb_spec c 114) as [->|]; [apply (Hs 13); [exact H|cbn; tauto]|]. destruct (N.eqb_spec c 110) as [->|]; [apply (Hs 10); [exact H|cbn; tauto]|].
    destruct (N.eqb_spec c 116) as [->|]; [apply (Hs 9); [exact H|cbn; tauto]|]. destruct (N.eqb_spec c 39) as [->|]; [apply (Hs 39); [exact H|cbn; tauto]|]. destruct (N.eqb_spec c 34) as [->|]; [apply (Hs 34); [exact H|cbn; tauto]|].
    destruct (N.eqb_spec c 117) as [->|]; [apply (Hu 4%nat); [auto|]; destruct (unescape_from (Unicode 4 []) text); [exact H|discriminate H]|]. destruct (N.eqb_spec c 85) as [->|]; [apply (Hu 8%nat); [auto|]; destruct (unescape_from (Unicode 8 []) text); [exact H|discriminate H]|]. discriminate H.
  - destruct (unescape_from Idle text) as [t|] eqn:Et; [|discriminate H]. injection H as <-. apply un_plain; [exact Nc|]. apply IH; [lia| |exact Et]. intro X. apply N. right. exact X.
Qed.
Lemma display_right s : unescapes (display_string s) s.
Proof.
  induction s as [|c s IH]; [apply un_nil|]. cbn [display_string flat_map]. fold (display_string s). unfold escape_char. destruct (N.eqb_spec c 92) as [->|N92]; [apply un_simple; [cbn; tauto|exact IH]|]. destruct (N.eqb_spec c 13) as [->|]; [apply un_simple; [cbn; tauto|exact IH]|].
  destruct (N.eqb_spec c 10) as [->|]; [apply un_simple; [cbn; tauto|exact IH]|]. destruct (N.eqb_spec c 34) as [->|]; [apply un_simple; [cbn; tauto|exact IH]|]. apply un_plain; assumption.
Qed.
