(** Proofs about names, type keys and packages. *)
From Coq Require Import String Lia ZifyBool ZifyN ZifyNat.
From Verif Require Import Base GenModel ExprModel ExprProofs PkgModel PkgSpec.
Open Scope list_scope.
Open Scope N_scope.
Ltac Zify.zify_post_hook ::= Z.div_mod_to_equations.

(** * Regular expressions *)

Fixpoint lang (r : regex) (s : text) : Prop :=
  match r with
  | RNone => False
  | REmpty => s = []
  | RSet p => exists c, s = [c] /\ p c = true
  | RCat a b => exists x y, s = x ++ y /\ lang a x /\ lang b y
  | RAlt a b => lang a s \/ lang b s
  | RStar a => exists ws, s = concat ws /\ Forall (lang a) ws
  end.
Lemma lang_nullable r : nullable r = true <-> lang r [].
Proof.
  induction r as [| |p|a IHa b IHb|a IHa b IHb|a IHa]; cbn [nullable lang].
  - split; [intro H; discriminate H|intros []].
  - split; reflexivity.
  - split; [intro H; discriminate H|]. intros (c & H & _). discriminate H.
  - rewrite Bool.andb_true_iff, IHa, IHb. split.
    + intros (Ha & Hb). exists [], []. auto.
    + intros (x & y & E & Ha & Hb). symmetry in E. apply app_eq_nil in E. destruct E as (-> & ->). auto.
  - rewrite Bool.orb_true_iff, IHa, IHb. reflexivity.
  - split; [|reflexivity]. intros _. exists []. split; [reflexivity|constructor].
Qed.
Lemma lang_derive c r : forall s, lang (derive c r) s <-> lang r (c :: s).
Proof.
  induction r as [| |p|a IHa b IHb|a IHa b IHb|a IHa]; intro s; cbn [derive].
  - reflexivity.
  - cbn [lang]. split; [intros []|intro H; discriminate H].
  - destruct (p c) eqn:E; cbn [lang].
    + split; [intros ->; exists c; auto|]. intros (d & H & _). injection H as _ ->. reflexivity.
    + split; [intros []|]. intros (d & H & Hd). injection H as <- _. congruence.
  - assert (C : (exists x y, s = x ++ y /\ lang (derive c a) x /\ lang b y) <-> exists x y, s = x ++ y /\ lang a (c :: x) /\ lang b y).
    { split; intros (x & y & E & Hx & Hy); exists x, y; (split; [exact E|]); split; try exact Hy; apply IHa; exact Hx. }
    assert (D : lang (RCat a b) (c :: s) <-> (exists x y, s = x ++ y /\ lang a (c :: x) /\ lang b y) \/ (lang a [] /\ lang b (c :: s))).
    { cbn [lang]. split.
      - intros ([|d x] & y & E & Hx & Hy).
        + cbn [app] in E. subst y. right. auto.
        + injection E as <- ->. left. exists x, y. auto.
      - intros [ (x & y & -> & Hx & Hy) | (Hx & Hy) ]; [exists (c :: x), y; auto|exists [], (c :: s); auto]. }
    rewrite D. destruct (nullable a) eqn:N; cbn [lang]; rewrite C.
    + rewrite IHb. apply lang_nullable in N. tauto.
    + split; [auto|]. intros [H|(H & _)]; [exact H|]. apply lang_nullable in H. congruence.
  - cbn [lang]. rewrite IHa, IHb. reflexivity.
  - cbn [lang]. split.
    + intros (x & y & -> & Hx & ws & -> & Hw). exists ((c :: x) :: ws). split; [reflexivity|]. constructor; [apply IHa; exact Hx|exact Hw].
    + intros (ws & E & Hw). induction Hw as [|w ws Hw Hws IH]; [discriminate E|]. destruct w as [|d w].
      * apply IH. exact E.
      * injection E as <- ->. exists w, (concat ws). split; [reflexivity|]. split; [apply IHa; exact Hw|]. exists ws. auto.
Qed.
Lemma is_match_lang s : forall r, is_match r s = true <-> lang r s.
Proof. induction s as [|c s IH]; intro r; cbn [is_match]; [apply lang_nullable|]. rewrite IH. apply lang_derive. Qed.

Lemma lang_star_set p s : lang (RStar (RSet p)) s <-> Forall (fun c => p c = true) s.
Proof.
  cbn [lang]. split.
  - intros (ws & -> & H). induction H as [|w ws (c & -> & Hc) _ IH]; [constructor|]. cbn [concat app]. constructor; assumption.
  - intro H. exists (map (fun c => [c]) s). split.
    + clear H. induction s as [|c s IH]; [reflexivity|]. cbn [map concat app]. rewrite <- IH. reflexivity.
    + induction H as [|c s Hc _ IH]; constructor; [exists c; auto|exact IH].
Qed.
Lemma lang_word w : forall s, lang (RWord w) s <-> lowercase s = w.
Proof.
  induction w as [|x w IH]; intro s; cbn [RWord lang].
  - split; [intros ->; reflexivity|]. destruct s; [reflexivity|]. intro H. discriminate H.
  - split.
    + intros (a & y & -> & (c & -> & Hc) & Hy). apply IH in Hy. apply N.eqb_eq in Hc. cbn [app]. unfold lowercase. cbn [map]. change (map _ y) with (lowercase y). rewrite Hy. f_equal. exact Hc.
    + destruct s as [|c s]; [intro H; discriminate H|]. unfold lowercase. cbn [map]. intro H. injection H as Hc Hs. exists [c], s. split; [reflexivity|]. split; [exists c; split; [reflexivity|]; apply N.eqb_eq; exact Hc|]. apply IH. exact Hs.
Qed.
Lemma lang_any rs s : lang (RAny rs) s <-> exists r, In r rs /\ lang r s.
Proof.
  induction rs as [|r rs IH]; cbn [RAny fold_right].
  - split; [intros []|]. intros (r & [] & _).
  - change (lang r s \/ lang (RAny rs) s <-> exists r', In r' (r :: rs) /\ lang r' s). rewrite IH. split.
    + intros [H|(r' & H1 & H2)]; [exists r; split; [left; reflexivity|exact H]|exists r'; split; [right; exact H1|exact H2] ].
    + intros (r' & [<-|H1] & H2); [left; exact H2|right; eauto].
Qed.

(** * Characters *)

Lemma digit_spec c : digit c = true <-> is_digit c.
Proof. unfold digit, is_digit. lia. Qed.
Lemma digits_forall s : Forall (fun c => digit c = true) s <-> Forall is_digit s.
Proof. split; apply Forall_impl; intro c; apply digit_spec. Qed.
Lemma digits_forallb s : forallb digit s = true <-> Forall is_digit s.
Proof. rewrite forallb_forall, Forall_forall. split; intros H c Hc; apply digit_spec; auto. Qed.
Lemma lower_digit c : is_digit (lower_char c) <-> is_digit c.
Proof. unfold is_digit, lower_char, upper. destruct ((65 <=? c) && (c <=? 90)) eqn:E; lia. Qed.
Lemma lower_same c x : (x < 65 \/ 122 < x \/ 91 <= x <= 96) -> lower_char c = x <-> c = x.
Proof. unfold lower_char, upper. intro H. destruct ((65 <=? c) && (c <=? 90)) eqn:E; lia. Qed.
Lemma lower_digits s : Forall is_digit (lowercase s) <-> Forall is_digit s.
Proof.
  unfold lowercase. rewrite Forall_map. split; apply Forall_impl; intro c; apply lower_digit.
Qed.
Lemma lowercase_app a b : lowercase (a ++ b) = lowercase a ++ lowercase b.
Proof. apply map_app. Qed.
Lemma lowercase_split s a b : lowercase s = a ++ b -> exists x y, s = x ++ y /\ lowercase x = a /\ lowercase y = b.
Proof. intro H. apply map_eq_app in H. destruct H as (x & y & H). exists x, y. exact H. Qed.
Lemma lower_newline s : In 10 (lowercase s) <-> In 10 s.
Proof.
  unfold lowercase. rewrite in_map_iff. split.
  - intros (c & E & H). apply (lower_same c 10) in E; [subst c; exact H|lia].
  - intro H. exists 10. auto.
Qed.
Lemma lang_digit s : lang RDigit s <-> exists c, s = [c] /\ is_digit c.
Proof. cbn [RDigit lang]. split; intros (c & E & H); exists c; (split; [exact E|]); apply digit_spec; exact H. Qed.
Lemma lang_digits s : lang (RStar RDigit) s <-> Forall is_digit s.
Proof. unfold RDigit. rewrite lang_star_set. apply digits_forall. Qed.
Lemma lang_plus s : lang (RPlus RDigit) s <-> digits s.
Proof.
  unfold RPlus, digits. change (lang (RCat RDigit (RStar RDigit)) s) with (exists x y, s = x ++ y /\ lang RDigit x /\ lang (RStar RDigit) y). split.
  - intros (x & y & -> & Hx & Hy). apply lang_digit in Hx. destruct Hx as (c & -> & Hc). apply lang_digits in Hy. split; [intro H; discriminate H|]. constructor; assumption.
  - intros (Hn & H). destruct s as [|c s]; [destruct (Hn eq_refl)|]. inversion H. exists [c], s. split; [reflexivity|]. split; [apply lang_digit; eauto|apply lang_digits; assumption].
Qed.
Lemma lower_plus s : digits (lowercase s) <-> digits s.
Proof.
  unfold digits. rewrite lower_digits. split; intros (H & D); (split; [|exact D]); intro E.
  - subst s. apply H. reflexivity.
  - destruct s; [apply H; reflexivity|discriminate E].
Qed.

Lemma lang_cat a b s : lang (RCat a b) s <-> exists x y, s = x ++ y /\ lang a x /\ lang b y.
Proof. reflexivity. Qed.
Lemma lang_option a s : lang (ROption a) s <-> lang a s \/ s = [].
Proof. reflexivity. Qed.

(** ** Reserved words and identifiers *)

Definition r_int := RCat (ROption (word "u")) (RCat (word "int") (RStar RDigit)).
Definition r_fixed := RCat (ROption (word "u")) (RCat (word "q") (RCat (RPlus RDigit) (RCat (word "_") (RPlus RDigit)))).
Definition r_underscores := RCat (word "_") (RCat (RStar (RSet (fun c => negb (c =? 10)))) (word "_")).
Lemma word_lang w s : lang (word w) s <-> lowercase s = name_of w.
Proof. apply lang_word. Qed.
Lemma typed_lang w s : lang (RCat (word w) (RStar RDigit)) s <-> exists d, lowercase s = name_of w ++ d /\ Forall is_digit d.
Proof.
  rewrite lang_cat. split.
  - intros (x & y & -> & Hx & Hy). apply word_lang in Hx. apply lang_digits in Hy. exists (lowercase y). rewrite lowercase_app, Hx. split; [reflexivity|]. apply lower_digits. exact Hy.
  - intros (d & E & Hd). apply lowercase_split in E. destruct E as (x & y & -> & Hx & Hy). exists x, y. split; [reflexivity|]. split; [apply word_lang; exact Hx|]. apply lang_digits, lower_digits. rewrite Hy. exact Hd.
Qed.
Lemma device_lang w s : lang (RCat (word w) RDigit) s <-> exists c, lowercase s = name_of w ++ [c] /\ is_digit c.
Proof.
  rewrite lang_cat. split.
  - intros (x & y & -> & Hx & Hy). apply word_lang in Hx. apply lang_digit in Hy. destruct Hy as (c & -> & Hc). exists (lower_char c). rewrite lowercase_app, Hx. split; [reflexivity|]. apply lower_digit. exact Hc.
  - intros (c & E & Hc). apply lowercase_split in E. destruct E as (x & y & -> & Hx & Hy). exists x, y. split; [reflexivity|]. split; [apply word_lang; exact Hx|]. apply lang_digit. destruct y as [|d [|? ?] ]; try discriminate Hy. injection Hy as Hd. exists d. split; [reflexivity|]. apply lower_digit. change (is_digit (if (65 <=? d) && (d <=? 90) then d + 32 else d)). rewrite Hd. exact Hc.
Qed.
Lemma int_lang s : lang r_int s <-> exists w d, In w (map name_of ["int"; "uint"]%string) /\ lowercase s = w ++ d /\ Forall is_digit d.
Proof.
  unfold r_int. rewrite lang_cat. split.
  - intros (x & y & -> & Hx & Hy). apply typed_lang in Hy. destruct Hy as (d & Hy & Hd). apply lang_option in Hx. destruct Hx as [Hx|Hx].
    + apply word_lang in Hx. exists (name_of "uint"), d. split; [right; left; reflexivity|]. split; [|exact Hd]. rewrite lowercase_app, Hx, Hy. reflexivity.
    + change (x = []) in Hx. subst x. exists (name_of "int"), d. split; [left; reflexivity|]. split; [exact Hy|exact Hd].
  - intros (w & d & Hw & E & Hd). destruct Hw as [<-|[<-|[] ] ].
    + exists [], s. split; [reflexivity|]. split; [right; reflexivity|]. apply typed_lang. exists d. auto.
    + change (name_of "uint" ++ d) with ([117] ++ (name_of "int" ++ d)) in E. apply lowercase_split in E. destruct E as (x & y & -> & Hx & Hy). exists x, y. split; [reflexivity|]. split; [left; apply word_lang; exact Hx|]. apply typed_lang. exists d. auto.
Qed.
Lemma q_lang s : lang (RCat (word "q") (RCat (RPlus RDigit) (RCat (word "_") (RPlus RDigit)))) s <-> exists d e, lowercase s = name_of "q" ++ d ++ [95] ++ e /\ digits d /\ digits e.
Proof.
  rewrite lang_cat. split.
  - intros (x & y & -> & Hx & Hy). apply word_lang in Hx. apply lang_cat in Hy. destruct Hy as (d & z & -> & Hd & Hz). apply lang_cat in Hz. destruct Hz as (u & e & -> & Hu & He). apply word_lang in Hu. exists (lowercase d), (lowercase e). rewrite !lowercase_app, Hx, Hu. split; [reflexivity|]. split; apply lower_plus; apply lang_plus; assumption.
  - intros (d & e & E & Hd & He). apply lowercase_split in E. destruct E as (x & y & -> & Hx & Hy). apply lowercase_split in Hy. destruct Hy as (d' & z & -> & Hd' & Hz). apply lowercase_split in Hz. destruct Hz as (u & e' & -> & Hu & He'). exists x, (d' ++ u ++ e'). split; [reflexivity|]. split; [apply word_lang; exact Hx|]. apply lang_cat. exists d', (u ++ e'). split; [reflexivity|]. split; [apply lang_plus, lower_plus; rewrite Hd'; exact Hd|]. apply lang_cat. exists u, e'. split; [reflexivity|]. split; [apply word_lang; exact Hu|apply lang_plus, lower_plus; rewrite He'; exact He].
Qed.
Lemma fixed_lang s : lang r_fixed s <-> exists w d e, In w (map name_of ["q"; "uq"]%string) /\ lowercase s = w ++ d ++ [95] ++ e /\ digits d /\ digits e.
Proof.
  unfold r_fixed. rewrite lang_cat. split.
  - intros (x & y & -> & Hx & Hy). apply q_lang in Hy. destruct Hy as (d & e & Hy & Hd & He). apply lang_option in Hx. destruct Hx as [Hx|Hx].
    + apply word_lang in Hx. exists (name_of "uq"), d, e. split; [right; left; reflexivity|]. split; [|auto]. rewrite lowercase_app, Hx, Hy. reflexivity.
    + change (x = []) in Hx. subst x. exists (name_of "q"), d, e. split; [left; reflexivity|]. auto.
  - intros (w & d & e & Hw & E & Hd & He). destruct Hw as [<-|[<-|[] ] ].
    + exists [], s. split; [reflexivity|]. split; [right; reflexivity|]. apply q_lang. exists d, e. auto.
    + change (name_of "uq" ++ d ++ [95] ++ e) with ([117] ++ (name_of "q" ++ d ++ [95] ++ e)) in E. apply lowercase_split in E. destruct E as (x & y & -> & Hx & Hy). exists x, y. split; [reflexivity|]. split; [left; apply word_lang; exact Hx|]. apply q_lang. exists d, e. auto.
Qed.
Lemma underscores_lang s : lang r_underscores s <-> exists m, lowercase s = [95] ++ m ++ [95] /\ ~ In 10 m.
Proof.
  unfold r_underscores. rewrite lang_cat. split.
  - intros (x & y & -> & Hx & Hy). apply word_lang in Hx. apply lang_cat in Hy. destruct Hy as (m & u & -> & Hm & Hu). apply word_lang in Hu. exists (lowercase m). rewrite !lowercase_app, Hx, Hu. split; [reflexivity|]. rewrite lower_newline. apply lang_star_set in Hm. rewrite Forall_forall in Hm. intro H. specialize (Hm _ H). discriminate Hm.
  - intros (m & E & Hm). apply lowercase_split in E. destruct E as (x & y & -> & Hx & Hy). apply lowercase_split in Hy. destruct Hy as (m' & u & -> & Hm' & Hu). exists x, (m' ++ u). split; [reflexivity|]. split; [apply word_lang; exact Hx|]. apply lang_cat. exists m', u. split; [reflexivity|]. split; [|apply word_lang; exact Hu]. apply lang_star_set. rewrite Forall_forall. intros c Hc. destruct (c =? 10) eqn:Ec; [|reflexivity]. apply N.eqb_eq in Ec. subst c. destruct Hm. rewrite <- Hm'. apply lower_newline. exact Hc.
Qed.
Definition plain_words : list string :=
  ["truncated"; "saturated"; "true"; "false"; "bool"; "optional"; "aligned"; "const"; "struct"; "super"; "template"; "enum"; "self";
   "and"; "or"; "not"; "auto"; "type"; "con"; "prn"; "aux"; "nul"]%string.
Lemma reserved_cases s : lang reserved_pattern s <->
  (exists w, In w plain_words /\ lowercase s = name_of w) \/ lang r_int s \/ lang (RCat (word "float") (RStar RDigit)) s \/ lang r_fixed s \/
  lang (RCat (word "void") (RStar RDigit)) s \/ lang (RCat (word "com") RDigit) s \/ lang (RCat (word "lpt") RDigit) s \/ lang r_underscores s.
Proof.
  unfold reserved_pattern. fold r_int r_fixed r_underscores.
  assert (M : forall t, lang (RAny [word "truncated"; word "saturated"; word "true"; word "false"; word "bool"; r_int; RCat (word "float") (RStar RDigit); r_fixed;
     RCat (word "void") (RStar RDigit); word "optional"; word "aligned"; word "const"; word "struct"; word "super"; word "template"; word "enum"; word "self";
     word "and"; word "or"; word "not"; word "auto"; word "type"; word "con"; word "prn"; word "aux"; word "nul"; RCat (word "com") RDigit; RCat (word "lpt") RDigit; r_underscores]) t <->
     lang (RAny (map word plain_words)) t \/ lang r_int t \/ lang (RCat (word "float") (RStar RDigit)) t \/ lang r_fixed t \/
     lang (RCat (word "void") (RStar RDigit)) t \/ lang (RCat (word "com") RDigit) t \/ lang (RCat (word "lpt") RDigit) t \/ lang r_underscores t).
  { intro t. cbn [RAny fold_right map plain_words lang].
    generalize (lang r_int t) (lang r_fixed t) (lang r_underscores t). intros A B C. unfold RPlus. cbn [lang]. tauto. }
  rewrite M, lang_any. split.
  - intros [ (r & Hr & H)|H]; [|right; exact H]. left. apply in_map_iff in Hr. destruct Hr as (w & <- & Hw). exists w. split; [exact Hw|]. apply word_lang. exact H.
  - intros [ (w & Hw & H)|H]; [|right; exact H]. left. exists (word w). split; [apply in_map; exact Hw|]. apply word_lang. exact H.
Qed.
Lemma reserved_words_cases w : In w reserved_words <-> In w (map name_of plain_words) \/ In w (map name_of ["int"; "uint"; "float"; "void"]%string).
Proof. cbn [reserved_words plain_words map In]. tauto. Qed.
Lemma reserved_right s : is_reserved_keyword s = true <-> reserved s.
Proof.
  unfold is_reserved_keyword, reserved. rewrite is_match_lang, reserved_cases. split.
  - intros [H|[H|[H|[H|[H|[H|[H|H] ] ] ] ] ] ].
    + destruct H as (w & Hw & ->). apply rl_word, reserved_words_cases. left. apply in_map. exact Hw.
    + apply int_lang in H. destruct H as (w & d & Hw & -> & Hd). apply rl_type; [|exact Hd]. destruct Hw as [<-|[<-|[] ] ]; [left; reflexivity|right; left; reflexivity].
    + apply typed_lang in H. destruct H as (d & -> & Hd). apply rl_type; [|exact Hd]. do 2 right. left. reflexivity.
    + apply fixed_lang in H. destruct H as (w & d & e & Hw & -> & Hd & He). apply rl_fixed; assumption.
    + apply typed_lang in H. destruct H as (d & -> & Hd). apply rl_type; [|exact Hd]. do 3 right. left. reflexivity.
    + apply device_lang in H. destruct H as (c & -> & Hc). apply rl_device; [left; reflexivity|exact Hc].
    + apply device_lang in H. destruct H as (c & -> & Hc). apply rl_device; [right; left; reflexivity|exact Hc].
    + apply underscores_lang in H. destruct H as (m & -> & Hm). apply rl_underscores. exact Hm.
  - intro H. remember (lowercase s) as t eqn:E.
    assert (T : forall w d, In w (map name_of ["int"; "uint"; "float"; "void"]%string) -> Forall is_digit d -> lowercase s = w ++ d ->
       lang r_int s \/ lang (RCat (word "float") (RStar RDigit)) s \/ lang (RCat (word "void") (RStar RDigit)) s).
    { intros w d Hw Hd E'. destruct Hw as [<-|[<-|[<-|[<-|[] ] ] ] ].
      - left. apply int_lang. exists (name_of "int"), d. split; [left; reflexivity|]. auto.
      - left. apply int_lang. exists (name_of "uint"), d. split; [right; left; reflexivity|]. auto.
      - right. left. apply typed_lang. exists d. auto.
      - right. right. apply typed_lang. exists d. auto. }
    destruct H as [w Hw|w d Hw Hd|w d e Hw Hd He|w c Hw Hc|m Hm].
    + apply reserved_words_cases in Hw. destruct Hw as [Hw|Hw].
      * left. apply in_map_iff in Hw. destruct Hw as (x & <- & Hx). exists x. split; [exact Hx|reflexivity].
      * destruct (T w [] Hw (Forall_nil _)) as [H|[H|H] ]; [rewrite app_nil_r; congruence|tauto|tauto|tauto].
    + destruct (T w d Hw Hd (eq_sym E)) as [H|[H|H] ]; tauto.
    + right; right; right; left. apply fixed_lang. exists w, d, e. auto.
    + destruct Hw as [<-|[<-|[] ] ].
      * do 5 right. left. apply device_lang. exists c. auto.
      * do 6 right. left. apply device_lang. exists c. auto.
    + do 7 right. apply underscores_lang. exists m. auto.
Qed.
Lemma identifier_right s : is_valid_identifier s = true <-> identifier s.
Proof.
  unfold is_valid_identifier, identifier. rewrite is_match_lang. unfold identifier_pattern. rewrite lang_cat. split.
  - intros (x & y & -> & (c & -> & Hc) & Hy). apply lang_star_set in Hy. exists c, y. split; [reflexivity|]. split; [unfold upper, lower in Hc; unfold is_letter; lia|]. revert Hy. apply Forall_impl. intros a Ha. unfold upper, lower, digit in Ha. unfold is_letter, is_digit. lia.
  - intros (c & r & -> & Hc & Hr). exists [c], r. split; [reflexivity|]. split.
    + exists c. split; [reflexivity|]. unfold is_letter in Hc. unfold upper, lower. lia.
    + apply lang_star_set. revert Hr. apply Forall_impl. intros a Ha. unfold is_letter, is_digit in Ha. unfold upper, lower, digit. lia.
Qed.

(** * Numbers *)

Lemma digits_value_app s c : digits_value (s ++ [c]) = digits_value s * 10 + (c - 48).
Proof. unfold digits_value. rewrite fold_left_app. reflexivity. Qed.
Lemma denotes_value s : digits s -> denotes_number s (digits_value s).
Proof.
  intros (Hn & H). induction s as [|c s IH] using rev_ind; [destruct (Hn eq_refl)|]. apply Forall_app in H. destruct H as (Hs & Hc). inversion Hc; subst. destruct s as [|d s].
  - cbn [app]. replace (digits_value [c]) with (c - 48) by (unfold digits_value; cbn [fold_left]; lia). constructor. assumption.
  - rewrite digits_value_app. replace (digits_value (d :: s) * 10 + (c - 48)) with (10 * digits_value (d :: s) + (c - 48)) by lia. constructor; [|assumption]. apply IH; [intro E; discriminate E|exact Hs].
Qed.
Lemma denotes_inv s n : denotes_number s n -> digits s /\ n = digits_value s.
Proof.
  induction 1 as [c H|s n c _ ((Hn & Hs) & ->) Hc].
  - split; [split; [intro E; discriminate E|repeat constructor; apply H]|]. unfold digits_value. cbn [fold_left]. lia.
  - split; [split; [intro E; destruct s; discriminate E|]; apply Forall_app; split; [exact Hs|repeat constructor; apply Hc]|]. rewrite digits_value_app. lia.
Qed.
Lemma parse_number_right bound s n : parse_number bound s = Some n <-> denotes_number s n /\ n < bound.
Proof.
  unfold parse_number. split.
  - destruct s as [|c s]; [intro H; discriminate H|]. destruct (forallb digit (c :: s)) eqn:F; [|intro H; discriminate H]. cbv zeta. destruct (digits_value (c :: s) <? bound) eqn:B; [|intro H; discriminate H]. intro H. injection H as <-. apply digits_forallb in F. split; [|lia]. apply denotes_value. split; [intro H; discriminate H|exact F].
  - intros (D & B). apply denotes_inv in D. destruct D as ((Hn & Hs) & ->). destruct s as [|c s]; [destruct (Hn eq_refl)|]. apply digits_forallb in Hs. rewrite Hs. cbv zeta. replace (digits_value (c :: s) <? bound) with true by lia. reflexivity.
Qed.
Lemma show_u8_denotes n : n < 256 -> denotes_number (show_u8 n) n.
Proof.
  intro H. unfold show_u8.
  assert (D : forall k, k < 10 -> is_digit (48 + k)) by (intros; unfold is_digit; lia).
  destruct (100 <=? n) eqn:E1; destruct (10 <=? n) eqn:E2; cbn [app]; try lia.
  - replace n with (10 * (10 * (n / 100) + n / 10 mod 10) + n mod 10) at 4 by lia.
    change [48 + n / 100; 48 + n / 10 mod 10; 48 + n mod 10] with (([48 + n / 100] ++ [48 + n / 10 mod 10]) ++ [48 + n mod 10]).
    replace (10 * (10 * (n / 100) + n / 10 mod 10) + n mod 10) with (10 * (10 * ((48 + n / 100) - 48) + ((48 + n / 10 mod 10) - 48)) + ((48 + n mod 10) - 48)) by lia.
    apply dn_more; [|apply D; lia]. apply dn_more; [|apply D; lia]. apply dn_one. apply D. lia.
  - replace n with (10 * ((48 + n / 10 mod 10) - 48) + ((48 + n mod 10) - 48)) at 3 by lia.
    change [48 + n / 10 mod 10; 48 + n mod 10] with ([48 + n / 10 mod 10] ++ [48 + n mod 10]). apply dn_more; [|apply D; lia]. apply dn_one. apply D. lia.
  - replace n with ((48 + n mod 10) - 48) at 2 by lia. apply dn_one. apply D. lia.
Qed.
Lemma digits_part s : digits s -> part s.
Proof. intros (Hn & H). split; [exact Hn|]. intro I. rewrite Forall_forall in H. specialize (H _ I). unfold is_digit in H. lia. Qed.

(** * Splitting at dots *)

Lemma split_join s : join (split_dots s) = s.
Proof.
  induction s as [|c s IH]; [reflexivity|]. cbn [split_dots]. destruct (c =? dot) eqn:E.
  - apply N.eqb_eq in E. subst c. destruct (split_dots s) as [|w ws] eqn:Es; [destruct s as [|c s]; [discriminate Es|]; cbn [split_dots] in Es; destruct (c =? dot); [discriminate Es|]; destruct (split_dots s); discriminate Es|].
    change (join ([] :: w :: ws)) with ([] ++ [46] ++ join (w :: ws)). rewrite IH. reflexivity.
  - destruct (split_dots s) as [|w ws] eqn:Es; [cbn [join] in IH; subst s; reflexivity|]. destruct ws as [|v ws].
    + cbn [join] in IH |- *. rewrite IH. reflexivity.
    + change (join ((c :: w) :: v :: ws)) with (c :: (w ++ [46] ++ join (v :: ws))). change (join (w :: v :: ws)) with (w ++ [46] ++ join (v :: ws)) in IH. rewrite IH. reflexivity.
Qed.
Lemma split_no_dot s : Forall (fun w => ~ In 46 w) (split_dots s).
Proof.
  induction s as [|c s IH]; cbn [split_dots]; [repeat constructor; intros []|]. destruct (c =? dot) eqn:E.
  - constructor; [intros []|exact IH].
  - destruct (split_dots s) as [|w ws]; [repeat constructor|].
    + intros [H|[] ]. subst c. discriminate E.
    + inversion IH; subst. constructor; [|assumption]. intros [H|H]; [subst c; discriminate E|contradiction].
Qed.
Lemma split_word w : ~ In 46 w -> split_dots w = [w].
Proof.
  induction w as [|c w IH]; intro H; [reflexivity|]. cbn [split_dots]. destruct (c =? dot) eqn:E; [apply N.eqb_eq in E; subst c; destruct H; left; reflexivity|]. rewrite IH; [reflexivity|]. intro I. apply H. right. exact I.
Qed.
Lemma split_app w r : ~ In 46 w -> split_dots (w ++ [46] ++ r) = w :: split_dots r.
Proof.
  induction w as [|c w IH]; intro H; [reflexivity|]. change ((c :: w) ++ [46] ++ r) with (c :: (w ++ [46] ++ r)). cbn [split_dots]. destruct (c =? dot) eqn:E; [apply N.eqb_eq in E; subst c; destruct H; left; reflexivity|]. rewrite IH; [reflexivity|]. intro I. apply H. right. exact I.
Qed.
Lemma join_split ws : ws <> [] -> Forall (fun w => ~ In 46 w) ws -> split_dots (join ws) = ws.
Proof.
  induction ws as [|w ws IH]; intros Hn H; [destruct (Hn eq_refl)|]. inversion H; subst. destruct ws as [|v ws]; [apply split_word; assumption|]. change (join (w :: v :: ws)) with (w ++ [46] ++ join (v :: ws)). rewrite split_app; [|assumption]. rewrite IH; [reflexivity|intro E; discriminate E|assumption].
Qed.
Lemma join_cons w ws : ws <> [] -> join (w :: ws) = w ++ [46] ++ join ws.
Proof. destruct ws; [intro H; destruct (H eq_refl)|reflexivity]. Qed.
Lemma nonempty_spec w : nonempty w = true <-> w <> [].
Proof. destruct w; cbn [nonempty]; split; congruence. Qed.

(** * Type keys *)

Lemma show_join k : show_key k = join (key_path k ++ [key_name k; show_u8 (key_major k); show_u8 (key_minor k)]).
Proof.
  unfold show_key, dot. induction (key_path k) as [|w ws IH]; [reflexivity|]. cbn [flat_map]. rewrite <- app_assoc, IH. cbn [app]. rewrite join_cons; [rewrite <- app_assoc; reflexivity|]. destruct ws; intro H; discriminate H.
Qed.
Lemma parse_key_right s k : parse_key s = Some k <-> key_text k s.
Proof.
  unfold parse_key, key_text. split.
  - destruct (rev (split_dots s)) as [|b [|a [|n path] ] ] eqn:E; try (intro H; discriminate H).
    assert (E' : split_dots s = rev path ++ [n; a; b]) by (rewrite <- (rev_involutive (split_dots s)), E; cbn [rev]; rewrite <- !app_assoc; reflexivity).
    pose proof (split_no_dot s) as D. rewrite E' in D. apply Forall_app in D. destruct D as (Dp & D). inversion D as [|? ? Dn D1]; subst.
    destruct (nonempty n && forallb nonempty path) eqn:Ne; [|intro H; discriminate H]. apply andb_prop in Ne. destruct Ne as (Nn & Np). destruct path as [|w ws]; [intro H; discriminate H|]. remember (w :: ws) as path eqn:Ep.
    destruct (parse_number 256 a) as [x|] eqn:Pa; [|intro H; discriminate H]. destruct (parse_number 256 b) as [y|] eqn:Pb; [|intro H; discriminate H]. intro H. injection H as <-. cbn [key_path key_name key_major key_minor].
    apply parse_number_right in Pa, Pb. exists a, b. rewrite <- E', split_join. split; [reflexivity|]. split.
    { subst path. cbn [rev]. intro H. apply app_eq_nil in H. destruct H as (_ & H). discriminate H. }
    split; [|tauto]. apply Forall_app. split.
    { rewrite Forall_forall in Dp |- *. intros v Hv. split; [|apply Dp; exact Hv]. apply nonempty_spec. rewrite forallb_forall in Np. apply Np. apply in_rev. exact Hv. }
    repeat constructor; [apply nonempty_spec; exact Nn|exact Dn].
  - intros (a & b & -> & Hp & Hf & Ha & La & Hb & Lb). apply Forall_app in Hf. destruct Hf as (Fp & Fn). inversion Fn as [|? ? (Nn & Dn) _]; subst.
    rewrite join_split.
    + rewrite rev_app_distr. cbn [rev app]. destruct (rev (key_path k)) as [|w ws] eqn:Er.
      { destruct Hp. rewrite <- (rev_involutive (key_path k)), Er. reflexivity. }
      replace (nonempty (key_name k)) with true by (symmetry; apply nonempty_spec; exact Nn). replace (forallb nonempty (w :: ws)) with true.
      * cbn [andb]. rewrite (proj2 (parse_number_right 256 a (key_major k)) (conj Ha La)), (proj2 (parse_number_right 256 b (key_minor k)) (conj Hb Lb)). rewrite <- Er, rev_involutive. destruct k; reflexivity.
      * symmetry. rewrite <- Er. apply forallb_forall. intros v Hv. apply in_rev in Hv. rewrite Forall_forall in Fp. apply nonempty_spec. apply (Fp v Hv).
    + intro H. apply app_eq_nil in H. destruct H as (H & _). contradiction.
    + apply Forall_app. split; [revert Fp; apply Forall_impl; intros v (_ & H); exact H|]. repeat constructor; [exact Dn|apply digits_part; apply (denotes_inv _ _ Ha)|apply digits_part; apply (denotes_inv _ _ Hb)].
Qed.

(** * File names *)

Lemma extension_right e : is_extension e = true <-> e = name_of "uavcan" \/ e = name_of "dsdl".
Proof. unfold is_extension. rewrite Bool.orb_true_iff, !text_eqb_eq. reflexivity. Qed.
Lemma extension_part e : e = name_of "uavcan" \/ e = name_of "dsdl" -> ~ In 46 e.
Proof. intros [->| ->] H; vm_compute in H; repeat (destruct H as [H|H]; [discriminate H|]); exact H. Qed.
Lemma parse_file_right s port name a b : parse_file_name s = Some (port, name, a, b) <-> file_text port name a b s.
Proof.
  unfold parse_file_name, file_text.
  assert (V : forall port' n x y e (D : ~ In 46 n), (if nonempty n && is_extension e then match parse_number 256 x, parse_number 256 y with Some a, Some b => Some (port', n, a, b) | _, _ => None end else None) = Some (port, name, a, b) <->
     port' = port /\ n = name /\ part n /\ denotes_number x a /\ a < 256 /\ denotes_number y b /\ b < 256 /\ (e = name_of "uavcan" \/ e = name_of "dsdl")).
  { intros port' n x y e D. split.
    - destruct (nonempty n && is_extension e) eqn:E; [|intro H; discriminate H]. apply andb_prop in E. destruct E as (En & Ee). destruct (parse_number 256 x) as [u|] eqn:Px; [|intro H; discriminate H]. destruct (parse_number 256 y) as [v|] eqn:Py; [|intro H; discriminate H]. intro H. injection H as <- <- <- <-. apply parse_number_right in Px, Py. apply extension_right in Ee. apply nonempty_spec in En. unfold part. tauto.
    - intros (-> & -> & (Nn & _) & Hx & Lx & Hy & Ly & He). rewrite (proj2 (nonempty_spec name) Nn), (proj2 (extension_right e) He). cbn [andb]. rewrite (proj2 (parse_number_right 256 x a) (conj Hx Lx)), (proj2 (parse_number_right 256 y b) (conj Hy Ly)). reflexivity. }
  pose proof (split_no_dot s) as D. pose proof (split_join s) as J. split.
  - destruct (split_dots s) as [|w0 [|w1 [|w2 [|w3 [|w4 [|? ?] ] ] ] ] ] eqn:E; try (intro H; discriminate H).
    + inversion D as [|? ? D0 _]; subst. intro H. apply V in H; [|exact D0]. destruct H as (<- & <- & H1 & H2 & H3 & H4 & H5 & H6). exists [], w1, w2, w3. split; [reflexivity|]. split; [reflexivity|]. tauto.
    + inversion D as [|? ? _ D']; subst. inversion D' as [|? ? D0 _]; subst. destruct (parse_number (2 ^ 32) w0) as [p|] eqn:Pp; [|intro H; discriminate H]. intro H. apply V in H; [|exact D0]. destruct H as (<- & <- & H1 & H2 & H3 & H4 & H5 & H6). apply parse_number_right in Pp. exists [w0], w2, w3, w4. split; [reflexivity|]. split; [exists w0; tauto|]. tauto.
  - intros (p & x & y & e & -> & Hp & Hn & Hx & Lx & Hy & Ly & He).
    assert (P : Forall (fun w => ~ In 46 w) [name; x; y; e]) by (repeat constructor; [apply Hn|apply digits_part, (denotes_inv _ _ Hx)|apply digits_part, (denotes_inv _ _ Hy)|apply extension_part; exact He]).
    assert (W : (if nonempty name && is_extension e then match parse_number 256 x, parse_number 256 y with Some a, Some b => Some (port, name, a, b) | _, _ => None end else None) = Some (port, name, a, b)) by (apply V; [apply Hn|tauto]).
    destruct port as [n|].
    + destruct Hp as (t & -> & Ht & Lt). rewrite join_split; [|intro E; discriminate E|apply Forall_app; split; [repeat constructor; apply digits_part, (denotes_inv _ _ Ht)|exact P] ]. cbn [app]. rewrite (proj2 (parse_number_right (2 ^ 32) t n) (conj Ht Lt)). exact W.
    + subst p. rewrite join_split; [|intro E; discriminate E|exact P]. cbn [app]. exact W.
Qed.

(** * Packages *)

Lemma path_eqb_eq a : forall b, path_eqb a b = true <-> a = b.
Proof.
  induction a as [|x a IH]; intros [|y b]; cbn [path_eqb]; split; intro H; try reflexivity; try discriminate H.
  - apply andb_prop in H. destruct H as (H1 & H2). apply text_eqb_eq in H1. apply IH in H2. congruence.
  - injection H as -> ->. rewrite (proj2 (text_eqb_eq y y) eq_refl), (proj2 (IH b) eq_refl). reflexivity.
Qed.
Lemma key_eqb_same a b : key_eqb a b = true <-> same_key a b.
Proof. unfold key_eqb, same_key. rewrite !Bool.andb_true_iff, path_eqb_eq, text_eqb_eq, !N.eqb_eq. tauto. Qed.
Lemma key_exact_eq a b : key_eqb_exact a b = true <-> a = b.
Proof.
  unfold key_eqb_exact. rewrite !Bool.andb_true_iff, path_eqb_eq, text_eqb_eq, !N.eqb_eq. destruct a as [p1 n1 x1 y1], b as [p2 n2 x2 y2]. cbn [key_path key_name key_major key_minor]. split; [intros (((-> & ->) & ->) & ->); reflexivity|]. intro H. injection H as -> -> -> ->. tauto.
Qed.
Lemma same_refl a : same_key a a.
Proof. unfold same_key. tauto. Qed.
Lemma same_sym a b : same_key a b -> same_key b a.
Proof. unfold same_key. intros (-> & -> & -> & ->). tauto. Qed.
Lemma same_trans a b c : same_key a b -> same_key b c -> same_key a c.
Proof. unfold same_key. intros (-> & -> & -> & ->) (-> & -> & -> & ->). tauto. Qed.
Lemma full_length_join k : full_length k = N.of_nat (length (join (key_path k ++ [key_name k]))).
Proof.
  unfold full_length. induction (key_path k) as [|w ws IH]; [cbn [fold_right app join]; lia|]. cbn [fold_right app]. rewrite join_cons; [|destruct ws; intro H; discriminate H]. rewrite !app_length. cbn [length]. lia.
Qed.
Lemma validate_right k : validate_full_key k = true <-> acceptable k.
Proof.
  unfold validate_full_key. split.
  - destruct (key_path k) as [|w ws] eqn:E; [intro H; discriminate H|]. rewrite <- E. intro H. apply andb_prop in H. destruct H as (H & Hv). apply andb_prop in H. destruct H as (Hl & Hn). split.
    + rewrite E. intro H. discriminate H.
    + rewrite full_length_join in Hl. lia.
    + rewrite forallb_forall in Hn. apply Forall_forall. intros v Iv. specialize (Hn v Iv). apply andb_prop in Hn. destruct Hn as (Hi & Hr). split; [apply identifier_right; exact Hi|]. intro R. apply reserved_right in R. rewrite R in Hr. discriminate Hr.
    + intros (A & B). rewrite A, B in Hv. discriminate Hv.
  - intros [Hn Hl Hf Hv]. destruct (key_path k) as [|w ws] eqn:E; [destruct (Hn eq_refl)|]. rewrite <- E in *. apply andb_true_intro. split; [apply andb_true_intro; split|].
    + rewrite full_length_join. lia.
    + apply forallb_forall. intros v Iv. rewrite Forall_forall in Hf. destruct (Hf v Iv) as (Hi & Hr). apply identifier_right in Hi. rewrite Hi. destruct (is_reserved_keyword v) eqn:R; [apply reserved_right in R; contradiction|reflexivity].
    + destruct (key_major k =? 0) eqn:A; destruct (key_minor k =? 0) eqn:B; try reflexivity. destruct Hv. lia.
Qed.
Section Insert.
Context {File : Type}.
Implicit Types p : package File.
Lemma find_key_none {A} k (l : list (key * A)) : find_key k l = None <-> forall k' f, In (k', f) l -> ~ same_key k k'.
Proof.
  unfold find_key. split.
  - intros H k' f I S. apply find_none with (x := (k', f)) in H; [|exact I]. cbn [fst] in H. apply same_sym, key_eqb_same in S. congruence.
  - intro H. destruct (find (fun e => key_eqb (fst e) k) l) as [ (k' & f)|] eqn:E; [|reflexivity]. apply find_some in E. destruct E as (I & E). apply key_eqb_same, same_sym in E. destruct (H k' f I E).
Qed.
Lemma insert_right p k f :
  (acceptable k /\ (forall k' f', In (k', f') p -> ~ same_key k k') /\ try_insert p k f = (p ++ [(k, f)], true)) \/
  ((~ acceptable k \/ exists k' f', In (k', f') p /\ same_key k k') /\ try_insert p k f = (p, false)).
Proof.
  unfold try_insert. destruct (validate_full_key k) eqn:V.
  - apply validate_right in V. destruct (find_key k p) as [ (k' & f')|] eqn:E.
    + right. split; [|reflexivity]. right. apply find_some in E. destruct E as (I & E). apply key_eqb_same, same_sym in E. exists k', f'. auto.
    + left. split; [exact V|]. split; [|reflexivity]. apply find_key_none. exact E.
  - right. split; [|reflexivity]. left. intro A. apply validate_right in A. congruence.
Qed.
End Insert.
