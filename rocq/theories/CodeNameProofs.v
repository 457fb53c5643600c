(** Proofs about the generator of Rust code: names of modules and variants. *)
From Coq Require Import String Lia.
From Verif Require Import Base EncModel EncSpec BlsModel BlsSpec GenModel GenSpec ExprModel ExprProofs PkgModel PkgSpec PkgProofs CompModel CompSpec CodeModel CodeSpec CodeProofs CodeItemProofs.
Open Scope list_scope.
Open Scope N_scope.

(** * Conventional names *)

Definition low (c : N) : Prop := 97 <= c <= 122 \/ 48 <= c <= 57.
Definition upp (c : N) : Prop := 65 <= c <= 90 \/ 48 <= c <= 57.
Lemma words_of_low : forall s m w, s <> [] -> Forall low s -> words_of m w s = [w ++ s].
Proof.
  induction s as [|c r IH]; intros m w N F; [contradiction|]. inversion F as [|? ? F1 F2]; subst. cbn [words_of]. destruct r as [|n r]; [reflexivity|]. inversion F2 as [|? ? F3 _]; subst.
  assert (U : upper n = false) by (unfold upper, low in *; chars). assert (C : upper c = false) by (unfold low in *; chars). rewrite U, C.
  replace (match next_mode m c with Lowercase => false | _ => false end) with false by (destruct (next_mode m c); reflexivity). replace (match m with Uppercase => false && lower n | _ => false end) with false by (destruct m; reflexivity).
  rewrite IH; [rewrite <- app_assoc; reflexivity|discriminate|assumption].
Qed.
Lemma words_of_upp : forall s m w, s <> [] -> Forall upp s -> m <> Lowercase -> words_of m w s = [w ++ s].
Proof.
  induction s as [|c r IH]; intros m w N F M; [contradiction|]. inversion F as [|? ? F1 F2]; subst. cbn [words_of]. destruct r as [|n r]; [reflexivity|]. inversion F2 as [|? ? F3 _]; subst.
  assert (L : lower n = false) by (unfold upp in *; chars). assert (C : lower c = false) by (unfold upp in *; chars). assert (X : next_mode m c <> Lowercase) by (unfold next_mode; rewrite C; destruct (upper c); [discriminate|exact M]).
  replace (match next_mode m c with Lowercase => upper n | _ => false end) with false by (destruct (next_mode m c); [reflexivity|contradiction|reflexivity]). rewrite L, andb_false_r. replace (match m with Uppercase => false | _ => false end) with false by (destruct m; reflexivity).
  rewrite IH; [rewrite <- app_assoc; reflexivity|discriminate|assumption|exact X].
Qed.
Lemma split_words_app a r : Forall (fun c => alphanumeric c = true) a -> split_words (a ++ 95 :: r) = a :: split_words r.
Proof. induction 1 as [|c a H _ IH]; [reflexivity|]. cbn [app split_words]. rewrite H, IH. reflexivity. Qed.
Lemma split_words_one a : Forall (fun c => alphanumeric c = true) a -> split_words a = [a].
Proof. induction 1 as [|c a H _ IH]; [reflexivity|]. cbn [split_words]. rewrite H, IH. reflexivity. Qed.
Lemma low_alphanumeric s : Forall low s -> Forall (fun c => alphanumeric c = true) s.
Proof. apply Forall_impl. intros c H. unfold low in H. chars. Qed.
Lemma upp_alphanumeric s : Forall upp s -> Forall (fun c => alphanumeric c = true) s.
Proof. apply Forall_impl. intros c H. unfold upp in H. chars. Qed.
Lemma lowercase_word_low w : lowercase_word w -> w <> [] /\ Forall low w.
Proof. intros (c & r & -> & H & F). split; [discriminate|]. constructor; [left; exact H|exact F]. Qed.
Lemma uppercase_word_upp w : uppercase_word w -> w <> [] /\ Forall upp w.
Proof. intros (c & r & -> & H & F). split; [discriminate|]. constructor; [left; exact H|exact F]. Qed.
(** The words of a conventional name are those between the underscores. *)
Fixpoint joined (ws : list text) : text := match ws with [] => [] | [w] => w | w :: r => w ++ 95 :: joined r end.
Lemma words_with_words (P : text -> Prop) (A : forall w, P w -> Forall (fun c => alphanumeric c = true) w) (W : forall w, P w -> words_of Boundary [] w = [w]) s : words_with P s -> Forall P (words s) /\ words s <> [] /\ s = joined (words s).
Proof.
  induction 1 as [w H|w r H K (IH1 & IH2 & IH3)]; unfold words in *.
  - rewrite split_words_one by (apply A, H). cbn [flat_map]. rewrite app_nil_r, (W w H). split; [repeat constructor; exact H|]. split; [discriminate|reflexivity].
  - rewrite split_words_app by (apply A, H). cbn [flat_map]. rewrite (W w H). cbn [app]. split; [constructor; assumption|]. split; [discriminate|]. cbn [joined]. destruct (flat_map (words_of Boundary []) (split_words r)); [contradiction|]. rewrite IH3 at 1. reflexivity.
Qed.
Lemma lowercase_words s : words_with lowercase_word s -> Forall lowercase_word (words s) /\ words s <> [] /\ s = joined (words s).
Proof.
  apply words_with_words; intros w H; apply lowercase_word_low in H as (N & F); [apply low_alphanumeric, F|]. rewrite words_of_low by assumption. reflexivity.
Qed.
Lemma uppercase_words s : words_with uppercase_word s -> Forall uppercase_word (words s) /\ words s <> [] /\ s = joined (words s).
Proof.
  apply words_with_words; intros w H; apply uppercase_word_upp in H as (N & F); [apply upp_alphanumeric, F|]. rewrite words_of_upp by (assumption || discriminate). reflexivity.
Qed.

(** * Capitalized words can be told apart *)

Definition starts_upper (s : text) : Prop := s = [] \/ exists c r, s = c :: r /\ 65 <= c <= 90.
Lemma split_upper a b : forall x y, Forall low a -> Forall low b -> starts_upper x -> starts_upper y -> a ++ x = b ++ y -> a = b /\ x = y.
Proof.
  revert b. induction a as [|c a IH]; intros [|d b] x y A B X Y E; cbn [app] in E.
  - auto.
  - exfalso. pose proof (Forall_inv B) as B1. destruct X as [->|(c & r & -> & L)]; [discriminate E|]. injection E as -> _. unfold low in B1. lia.
  - exfalso. pose proof (Forall_inv A) as A1. destruct Y as [->|(d & r & -> & L)]; [discriminate E|]. injection E as -> _. unfold low in A1. lia.
  - injection E as -> E. inversion A; inversion B; subst. destruct (IH b x y) as (-> & ->); auto.
Qed.
Lemma camel_words_injective (P : text -> Prop) (S : forall w, P w -> exists c r, capitalize w = c :: r /\ 65 <= c <= 90 /\ Forall low r) (I : forall v w, P v -> P w -> capitalize v = capitalize w -> v = w) :
  forall a b, Forall P a -> Forall P b -> flat_map capitalize a = flat_map capitalize b -> a = b.
Proof.
  assert (U : forall l, Forall P l -> starts_upper (flat_map capitalize l)).
  { intros l F. destruct F as [|w l H _]; [left; reflexivity|]. right. destruct (S w H) as (c & r & E & L & _). exists c, (r ++ flat_map capitalize l). cbn [flat_map]. rewrite E. auto. }
  induction a as [|v a IH]; intros [|w b] A B E; [reflexivity| | |].
  - exfalso. inversion B; subst. destruct (S w) as (c & r & X & _); [assumption|]. cbn [flat_map] in E. rewrite X in E. discriminate E.
  - exfalso. inversion A; subst. destruct (S v) as (c & r & X & _); [assumption|]. cbn [flat_map] in E. rewrite X in E. discriminate E.
  - inversion A as [|? ? A1 A2]; inversion B as [|? ? B1 B2]; subst. destruct (S v A1) as (c & r & X & L & F). destruct (S w B1) as (d & q & Y & M & G). cbn [flat_map] in E. rewrite X, Y in E. cbn [app] in E. injection E as -> E.
    apply split_upper in E as (-> & E); [|assumption|assumption|apply U; assumption|apply U; assumption]. f_equal; [apply I; [assumption..|congruence]|apply IH; assumption].
Qed.
Lemma lowercase_low r : Forall low r -> lowercase r = r.
Proof. unfold lowercase. induction 1 as [|c r H _ IH]; [reflexivity|]. cbn [map]. rewrite IH. f_equal. unfold low in H. chars. Qed.
Lemma lowercase_upp r : Forall upp r -> Forall low (lowercase r).
Proof. unfold lowercase. induction 1 as [|c r H _ IH]; constructor; [|exact IH]. unfold low, upp in *. chars. Qed.
Lemma lowercase_upp_injective a : forall b, Forall upp a -> Forall upp b -> lowercase a = lowercase b -> a = b.
Proof.
  unfold lowercase. induction a as [|c a IH]; intros [|d b] A B E; cbn [map] in E; try discriminate E; [reflexivity|]. inversion A as [|? ? A1 A2]; inversion B as [|? ? B1 B2]; subst.
  pose proof (f_equal (hd 0) E) as E1. pose proof (f_equal (@tl N) E) as E2. cbn [hd tl] in E1, E2. f_equal; [|apply IH; assumption]. unfold upp in *. clear - A1 B1 E1. destruct (N.leb_spec 65 c), (N.leb_spec c 90), (N.leb_spec 65 d), (N.leb_spec d 90); cbn [andb] in E1; lia.
Qed.
Lemma camel_lowercase a b : words_with lowercase_word a -> words_with lowercase_word b -> camel a = camel b -> a = b.
Proof.
  intros A B E. destruct (lowercase_words a A) as (FA & _ & EA). destruct (lowercase_words b B) as (FB & _ & EB). rewrite EA, EB. f_equal. revert FA FB E. unfold camel. apply camel_words_injective.
  - intros w (c & r & -> & H & F). cbn [capitalize]. rewrite (lowercase_low r F). eexists. eexists. split; [reflexivity|]. split; [unfold upper_char; chars|exact F].
  - intros v w (c & r & -> & H & F) (d & q & -> & K & G) X. cbn [capitalize] in X. rewrite (lowercase_low r F), (lowercase_low q G) in X. injection X as X ->. f_equal. unfold upper_char in X. destruct (lower c) eqn:Lc; [|chars]. destruct (lower d) eqn:Ld; [|chars]. lia.
Qed.
Lemma camel_uppercase a b : words_with uppercase_word a -> words_with uppercase_word b -> camel a = camel b -> a = b.
Proof.
  intros A B E. destruct (uppercase_words a A) as (FA & _ & EA). destruct (uppercase_words b B) as (FB & _ & EB). rewrite EA, EB. f_equal. revert FA FB E. unfold camel.
  assert (U : forall c, 65 <= c <= 90 -> upper_char c = c) by (intros c H; unfold upper_char; chars). apply camel_words_injective.
  - intros w (c & r & -> & H & F). cbn [capitalize]. rewrite (U c H). eexists. eexists. split; [reflexivity|]. split; [exact H|apply lowercase_upp, F].
  - intros v w (c & r & -> & H & F) (d & q & -> & K & G) X. cbn [capitalize] in X. rewrite (U c H), (U d K) in X. injection X as -> X. f_equal. apply lowercase_upp_injective; assumption.
Qed.
Lemma conventional_letter s : conventional s -> exists c r, s = c :: r /\ is_letter c.
Proof.
  assert (G : forall P : text -> Prop, (forall w, P w -> exists c r, w = c :: r /\ is_letter c) -> words_with P s -> exists c r, s = c :: r /\ is_letter c).
  { intros P H [w W|w r W _]; destruct (H w W) as (c & q & -> & L); [exists c, q|exists c, (q ++ 95 :: r)]; auto. }
  intros [W|W]; revert W; apply G; intros w (c & r & -> & H & _); exists c, r; unfold is_letter; auto.
Qed.
Lemma conventional_make s : conventional s -> make_rust_identifier s = s.
Proof. intro C. destruct (make_cases s) as [(_ & E)|(-> & _)]; [exact E|]. destruct (conventional_letter _ C) as (c & r & E & L). injection E as <- _. unfold is_letter in L. lia. Qed.

(** * Modules for versions *)

Lemma words_of_nonempty : forall s m w, (m = Uppercase -> w <> []) -> Forall (fun w => w <> []) (words_of m w s).
Proof.
  induction s as [|c r IH]; intros m w M; [constructor|]. cbn [words_of]. assert (X : w ++ [c] <> []) by (intro E; apply app_eq_nil in E as (_ & E); discriminate E). destruct r as [|n r]; [repeat constructor; exact X|].
  destruct (match next_mode m c with Lowercase => upper n | _ => false end); [constructor; [exact X|apply IH; discriminate]|]. destruct (match m with Uppercase => upper c && lower n | _ => false end) eqn:E; [|apply IH; intros _; exact X].
  constructor; [apply M; destruct m; try discriminate E; reflexivity|apply IH; discriminate].
Qed.
Lemma words_nonempty s : Forall (fun w => w <> []) (words s).
Proof. unfold words. induction (split_words s) as [|w ws IH]; [constructor|]. cbn [flat_map]. apply Forall_app. split; [apply words_of_nonempty; discriminate|exact IH]. Qed.
Lemma snake_head s c r : letters s = c :: r -> exists r', snake s = lower_char c :: r'.
Proof.
  intro E. unfold snake. rewrite <- concat_words in E. pose proof (words_nonempty s) as N. destruct (words s) as [|w ws]; [discriminate E|]. inversion N; subst. destruct w as [|d w]; [contradiction|]. cbn [concat app] in E. injection E as -> _.
  cbn [map join_words]. destruct (map lowercase ws) as [|l l0]; [exists (lowercase w)|exists (lowercase w ++ underscore :: join_words (l :: l0))]; reflexivity.
Qed.
Lemma letters_first s : first_letter s -> exists c r, letters s = c :: r /\ is_letter c.
Proof.
  intros (us & c & r & -> & U & L). exists c, (letters r). split; [|exact L]. rewrite letters_app. replace (letters us) with (@nil N); [|induction U as [|? us <- _ IH]; [reflexivity|exact IH] ]. unfold letters. cbn [filter app]. replace (alphanumeric c) with true; [reflexivity|]. unfold is_letter in L. chars.
Qed.
Lemma snake_identifier s : first_letter s -> exists c r, snake s = c :: r /\ is_letter c /\ Forall (fun c => is_letter c \/ is_digit c \/ c = 95) r.
Proof.
  intro F. destruct (letters_first s F) as (c & r & E & L). destruct (snake_head s c r E) as (r' & E'). exists (lower_char c), r'. split; [exact E'|]. split; [unfold lower_char, is_letter in *; chars|].
  pose proof (snake_chars s) as C. rewrite E' in C. inversion C as [|? ? _ C2]; subst. eapply Forall_impl; [|exact C2]. intros x [X|X]; [|auto]. unfold is_letter, is_digit. chars.
Qed.
Lemma keywords_no_digit w : In w rust_keywords -> Forall (fun c => ~ is_digit c) w.
Proof.
  intro I. assert (X : forallb (fun w => forallb (fun c => negb (digit c)) w) rust_keywords = true) by (vm_compute; reflexivity). rewrite forallb_forall in X. specialize (X w I). rewrite forallb_forall in X. apply Forall_forall. intros c J D. specialize (X c J). unfold is_digit in D. unfold digit in X. chars.
Qed.
Lemma version_identifier k : proper k -> first_letter (key_name k) -> rust_identifier (version_module k).
Proof.
  intros P F. destruct (snake_identifier _ F) as (c & r & E & L & C). pose proof (pr_major k P). pose proof (pr_minor k P). destruct (show_digits (key_major k) ltac:(lia)) as (D1 & N1). destruct (show_digits (key_minor k) ltac:(lia)) as (D2 & N2). unfold version_module, underscore. rewrite E. cbn [app]. split; [|split].
  - exists c. eexists. split; [reflexivity|]. split; [left; exact L|]. apply Forall_app. split; [exact C|]. constructor; [auto|]. apply Forall_app. split; [eapply Forall_impl; [|exact D1]; auto|]. constructor; [auto|]. eapply Forall_impl; [|exact D2]; auto.
  - intro X. injection X as -> _. unfold is_letter in L. lia.
  - intro I. apply keywords_no_digit in I. destruct (show_u8 (key_minor k)) as [|d s]; [contradiction|]. inversion D2 as [|? ? Dd _]; subst. rewrite Forall_forall in I. apply (I d); [|exact Dd]. right. apply in_or_app. right. right. apply in_or_app. right. right. left. reflexivity.
Qed.
Lemma starts_with_app p : forall s, starts_with p (p ++ s) = true.
Proof. induction p as [|x p IH]; intro s; [reflexivity|]. cbn [app starts_with]. rewrite N.eqb_refl, IH. reflexivity. Qed.
Lemma suffix_not_keyword w r : r <> RoleMessage -> ~ In (w ++ suffix r) rust_keywords.
Proof.
  intros R I. assert (X : forallb (fun w => negb (starts_with (rev (suffix RoleRequest)) (rev w)) && negb (starts_with (rev (suffix RoleResponse)) (rev w))) rust_keywords = true) by (vm_compute; reflexivity).
  rewrite forallb_forall in X. specialize (X _ I). rewrite rev_app_distr in X. apply andb_true_iff in X as (X1 & X2). destruct r; [contradiction| |]; rewrite starts_with_app in *; discriminate.
Qed.
Lemma identifier_app s t : identifier s -> Forall (fun c => is_letter c \/ is_digit c \/ c = 95) t -> identifier (s ++ t).
Proof. intros (c & r & -> & L & F) G. exists c, (r ++ t). split; [reflexivity|]. split; [exact L|apply Forall_app; auto]. Qed.
Lemma suffix_chars r : Forall (fun c => is_letter c \/ is_digit c \/ c = 95) (suffix r).
Proof. destruct r; cbn [suffix]; [constructor|..]; apply Forall_forall; intros c I; left; unfold is_letter; vm_compute in I; repeat (destruct I as [<-|I]; [lia|]); destruct I. Qed.
Lemma make_identifier s : identifier s -> ~ In s rust_keywords -> rust_identifier (make_rust_identifier s).
Proof.
  intros I K. destruct (make_cases s) as [(N & ->)|(-> & ->)]; [split; auto|]. split; [exists 95, [48]; split; [reflexivity|]; split; [auto|]; constructor; [right; left; unfold is_digit; lia|constructor]|]. split; [discriminate|]. intro J. apply keywords_no_digit in J. inversion J as [|? ? _ J2]; subst. inversion J2 as [|? ? J3 _]; subst. apply J3. unfold is_digit. lia.
Qed.
Lemma type_name_identifier k r : identifier (key_name k) -> ~ In (key_name k) rust_keywords -> rust_identifier (make_rust_identifier (key_name k) ++ suffix r).
Proof.
  intros I K. destruct (make_identifier _ I K) as (A & B & C). split; [apply identifier_app; [exact A|apply suffix_chars]|]. split.
  - intro E. destruct r; cbn [suffix] in E; [rewrite app_nil_r in E; contradiction| |]; apply (f_equal (@length N)) in E; rewrite app_length in E; cbn in E; lia.
  - destruct r; [cbn [suffix]; rewrite app_nil_r; exact C|apply suffix_not_keyword; discriminate|apply suffix_not_keyword; discriminate].
Qed.
