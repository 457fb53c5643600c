(** Proofs about the warnings of the DSDL compiler. *)
From Coq Require Import String Lia.
From Verif Require Import Base EncModel EncSpec BlsModel BlsSpec GenModel GenSpec ExprModel ExprProofs PkgModel PkgSpec PkgProofs CompModel CompSpec CodeModel CodeSpec CodeProofs CodeItemProofs CodeNameProofs WarnModel WarnSpec.
Open Scope list_scope.
Open Scope N_scope.

(** * Styles *)

Lemma snake_case_style s : is_permissive_snake_case s = true <-> snake_style s.
Proof.
  unfold is_permissive_snake_case, snake_style. rewrite forallb_forall, Forall_forall. split; intros H c I; specialize (H c I).
  - unfold lower, digit, underscore, is_digit in *. destruct (N.eqb_spec c 95); [auto|]. chars.
  - unfold underscore, is_digit in *. destruct H as [H|[H| ->] ]; [|destruct (N.eqb_spec c 95); [rewrite orb_true_r; reflexivity|] |apply orb_true_r]; chars.
Qed.
Lemma then_underscore s : alphanumeric_then_underscore s = true <-> exists m b, s = m ++ b /\ (b = [] \/ b = [95]) /\ Forall (fun c => is_letter c \/ is_digit c) m.
Proof.
  induction s as [|c r IH]; cbn [alphanumeric_then_underscore].
  - split; [|reflexivity]. intros _. exists [], []. repeat split; auto.
  - destruct (alphanumeric c) eqn:A.
    + rewrite IH. split.
      * intros (m & b & -> & B & F). exists (c :: m), b. split; [reflexivity|]. split; [exact B|]. constructor; [|exact F]. unfold is_letter, is_digit. clear - A. chars.
      * intros (m & b & E & B & F). destruct m as [|x m].
        -- cbn [app] in E. destruct B as [-> | ->]; [discriminate E|]. injection E as -> ->. discriminate A.
        -- injection E as -> ->. inversion F; subst. exists m, b. auto.
    + rewrite andb_true_iff, N.eqb_eq. split.
      * intros (-> & R). destruct r; [|discriminate R]. exists [], [95]. repeat split; auto.
      * intros (m & b & E & B & F). destruct m as [|x m].
        -- cbn [app] in E. destruct B as [-> | ->]; [discriminate E|]. injection E as -> ->. auto.
        -- injection E as <- _. inversion F as [|? ? F1 _]; subst. unfold is_letter, is_digit in F1. exfalso. clear - A F1. chars.
Qed.
Lemma camel_case_style s : is_permissive_upper_camel_case s = true <-> camel_style s.
Proof.
  unfold is_permissive_upper_camel_case, camel_style, underscore. destruct s as [|c r]; [split; [|reflexivity]; intros _; exists [], [], []; repeat split; auto|].
  destruct (N.eqb_spec c 95) as [->|N].
  - rewrite then_underscore. split.
    + intros (m & b & -> & B & F). exists [95], m, b. auto.
    + intros (a & m & b & E & [-> | ->] & B & F); [|injection E as ->; exists m, b; auto]. destruct m as [|x m].
      * cbn [app] in E. destruct B as [-> | ->]; [discriminate E|]. injection E as ->. exists [], []. auto.
      * injection E as <- _. inversion F as [|? ? F1 _]; subst. unfold is_letter, is_digit in F1. lia.
  - rewrite then_underscore. split.
    + intros (m & b & E & B & F). exists [], m, b. auto.
    + intros (a & m & b & E & [-> | ->] & B & F); [exists m, b; auto|]. injection E as -> _. contradiction.
Qed.

(** * Words in uppercase *)

Definition loud (w : text) : Prop := w <> [] /\ Forall upp w.
Lemma upp_not_underscore w : Forall upp w -> ~ In 95 w.
Proof. intros F I. rewrite Forall_forall in F. specialize (F 95 I). unfold upp in F. lia. Qed.
Lemma split_at (w r a t : text) : ~ In 95 w -> w ++ 95 :: r = a ++ 95 :: t -> (a = w /\ t = r) \/ exists a', a = w ++ 95 :: a' /\ r = a' ++ 95 :: t.
Proof.
  revert a. induction w as [|c w IH]; intros a N E.
  - destruct a as [|x a]; [injection E as E2; left; split; [reflexivity|symmetry; exact E2]|]. injection E as E1 E2. subst x. right. exists a. auto.
  - destruct a as [|x a]; injection E as E1 E2; [exfalso; apply N; left; exact E1|]. subst x. destruct (IH a) as [(-> & ->)|(a' & -> & ->)]; [intro I; apply N; right; exact I|exact E2|left; auto|right; exists a'; auto].
Qed.
Lemma words_not_nil s : words_with loud s -> s <> [].
Proof. intros [w (N & _)|w r _ _]; [exact N|]. intro E. apply app_eq_nil in E as (_ & E). discriminate E. Qed.
Lemma loud_style s : words_with loud s -> shouting_style s.
Proof.
  induction 1 as [w (N & F)|w r (N & F) W (I1 & I2 & I3 & I4)]; unfold shouting_style; pose proof (upp_not_underscore w F) as U.
  - split; [eapply Forall_impl; [|exact F]; intros c; unfold upp, is_digit; tauto|]. split; [intros r ->; apply U; left; reflexivity|]. split; [intros r ->; apply U, in_or_app; right; left; reflexivity|].
    intros a b ->. apply U, in_or_app. right. left. reflexivity.
  - split; [|split; [|split] ].
    + apply Forall_app. split; [eapply Forall_impl; [|exact F]; intros c; unfold upp, is_digit; tauto|]. constructor; [auto|exact I1].
    + intros x E. destruct w as [|c w]; [contradiction|]. injection E as -> _. apply U. left. reflexivity.
    + intros x E. destruct (exists_last (l := 95 :: r)) as (r0 & z & Ez); [discriminate|]. rewrite Ez in E. rewrite app_assoc in E. apply app_inj_tail in E as (_ & ->).
      destruct r0 as [|y r0]; [injection Ez as Er|injection Ez as _ Er; apply (I3 r0), Er]. apply (words_not_nil r W), Er.
    + intros a b E. cbn [app] in E. apply split_at in E as [(-> & E)|(a' & -> & ->)]; [apply (I2 b); symmetry; exact E| |exact U]. apply (I4 a' b). reflexivity.
Qed.
Lemma loud_cons c s : upp c -> words_with loud s -> words_with loud (c :: s).
Proof.
  intros U H. inversion H as [w (N & F)|w r (N & F) K]; subst.
  - apply ww_one. split; [discriminate|constructor; assumption].
  - apply (ww_more loud (c :: w) r); [split; [discriminate|constructor; assumption]|exact K].
Qed.
Lemma style_loud : forall n s, (length s <= n)%nat -> shouting_style s -> s = [] \/ words_with loud s.
Proof.
  induction n as [|n IH]; intros s L (S1 & S2 & S3 & S4); [destruct s; [auto|cbn in L; lia]|]. destruct s as [|c r]; [auto|]. right. inversion S1 as [|? ? C S1']; subst. cbn [length] in L.
  assert (U : upp c) by (destruct C as [C|[C| ->] ]; [left; exact C|right; exact C|exfalso; apply (S2 r); reflexivity]).
  destruct r as [|d r]; [apply ww_one; split; [discriminate|constructor; [exact U|constructor] ]|]. cbn [length] in L. destruct (N.eq_dec d 95) as [->|N].
  - apply (ww_more loud [c] r); [split; [discriminate|constructor; [exact U|constructor] ]|]. inversion S1'; subst. destruct (IH r) as [->|W]; [lia| |exfalso; apply (S3 [c]); reflexivity|exact W].
    split; [assumption|]. split; [intros x ->; apply (S4 [c] x); reflexivity|]. split; [intros x ->; apply (S3 (c :: 95 :: x)); reflexivity|]. intros a b ->. apply (S4 (c :: 95 :: a) b). reflexivity.
  - apply loud_cons; [exact U|]. destruct (IH (d :: r)) as [E|W]; [cbn [length]; lia| |discriminate E|exact W].
    split; [assumption|]. split; [intros x E; injection E as -> _; contradiction|]. split; [intros x E; apply (S3 (c :: x)); cbn [app]; rewrite E; reflexivity|]. intros a b E. apply (S4 (c :: a) b). cbn [app]. rewrite E. reflexivity.
Qed.
Lemma join_loud ws : ws <> [] -> Forall loud ws -> words_with loud (join_words ws).
Proof.
  intros N F. induction F as [|w ws H F IH]; [contradiction|]. cbn [join_words]. destruct ws as [|w' ws]; [apply ww_one; exact H|]. apply ww_more; [exact H|apply IH; discriminate].
Qed.
Lemma words_of_not_empty : forall s m w, (m = Uppercase -> w <> []) -> Forall (fun v => v <> []) (words_of m w s).
Proof.
  induction s as [|c r IH]; intros m w M; [constructor|]. cbn [words_of]. assert (X : w ++ [c] <> []) by (intro E; apply app_eq_nil in E as (_ & E); discriminate E). destruct r as [|n r]; [repeat constructor; exact X|].
  destruct (match next_mode m c with Lowercase => upper n | _ => false end); [constructor; [exact X|apply IH; discriminate]|].
  destruct m; try (apply IH; intros _; exact X). destruct (upper c && lower n); [|apply IH; intros _; exact X]. constructor; [apply M; reflexivity|apply IH; discriminate].
Qed.
Lemma words_not_empty s : Forall (fun v => v <> []) (words s).
Proof.
  unfold words. apply Forall_forall. intros v I. apply in_flat_map in I as (p & _ & I). assert (F : Forall (fun v => v <> []) (words_of Boundary [] p)) by (apply words_of_not_empty; discriminate). rewrite Forall_forall in F. apply F, I.
Qed.
Lemma upper_upp c : alphanumeric c = true -> upp (upper_char c).
Proof. unfold upper_char, upp. intro H. destruct (lower c) eqn:E; chars. Qed.
Lemma upp_upper w : Forall upp w -> map upper_char w = w.
Proof. induction 1 as [|c w H _ IH]; [reflexivity|]. cbn [map]. f_equal; [|exact IH]. unfold upper_char, upp in *. destruct (lower c) eqn:E; [|reflexivity]. exfalso. chars. Qed.
Lemma loud_words s : Forall loud (map (map upper_char) (words s)).
Proof.
  apply Forall_forall. intros v I. apply in_map_iff in I as (w & <- & I). pose proof (words_not_empty s) as N. pose proof (words_alphanumeric s) as A. rewrite Forall_forall in N, A. specialize (N w I). specialize (A w I). split.
  - destruct w; [contradiction|discriminate].
  - apply Forall_map. eapply Forall_impl; [|exact A]. intros c. apply upper_upp.
Qed.
Lemma empty_style : shouting_style [].
Proof. split; [constructor|]. split; [discriminate|]. split; [intros r E; destruct r; discriminate E|intros a b E; destruct a; discriminate E]. Qed.
Lemma shouty_style s : shouting_style (shouty s).
Proof.
  unfold shouty. pose proof (loud_words s) as L. destruct (map (map upper_char) (words s)) as [|w ws]; [apply empty_style|]. apply loud_style, join_loud; [discriminate|exact L].
Qed.
Lemma joined_join ws : joined ws = join_words ws.
Proof. induction ws as [|w ws IH]; [reflexivity|]. cbn [joined join_words]. destruct ws; [reflexivity|]. rewrite IH. reflexivity. Qed.
Lemma constant_style s : text_eqb s (shouty s) = true <-> shouting_style s.
Proof.
  rewrite text_eqb_eq. split; [intros ->; apply shouty_style|]. intro S. destruct (style_loud (length s) s) as [->|W]; [apply le_n|exact S|reflexivity|].
  assert (Q : Forall loud (words s) /\ words s <> [] /\ s = joined (words s)).
  { apply words_with_words; [intros w (_ & F); apply upp_alphanumeric, F| |exact W]. intros w (N & F). rewrite words_of_upp by (assumption || discriminate). reflexivity. }
  destruct Q as (F & _ & E). unfold shouty. rewrite E at 1. rewrite joined_join. f_equal. clear - F. induction F as [|w ws (_ & H) _ IH]; [reflexivity|]. cbn [map]. rewrite (upp_upper w H). f_equal. exact IH.
Qed.

(** * Suggestions *)

Lemma lower_style w : Forall (fun c => alphanumeric c = true) w -> snake_style (lowercase w).
Proof. unfold lowercase, snake_style. intro F. apply Forall_map. eapply Forall_impl; [|exact F]. intros c H. unfold is_digit. chars. Qed.
Lemma snake_in_style s : snake_style (snake s).
Proof.
  unfold snake. pose proof (words_alphanumeric s) as A. induction A as [|w ws H _ IH]; [constructor|]. cbn [map join_words]. destruct (map lowercase ws) eqn:E; [apply lower_style, H|]. apply Forall_app. split; [apply lower_style, H|].
  constructor; [right; right; reflexivity|]. exact IH.
Qed.
Lemma capitalize_alphanumeric w : Forall (fun c => alphanumeric c = true) w -> Forall (fun c => alphanumeric c = true) (capitalize w).
Proof. intros [|c r H F]; [constructor|]. cbn [capitalize]. constructor; [unfold upper_char; destruct (lower c) eqn:E; chars|apply lowercase_alphanumeric, F]. Qed.
Lemma camel_alphanumeric s : Forall (fun c => alphanumeric c = true) (camel s).
Proof.
  unfold camel. pose proof (words_alphanumeric s) as A. induction A as [|w ws H _ IH]; [constructor|]. cbn [flat_map]. apply Forall_app. split; [apply capitalize_alphanumeric, H|exact IH].
Qed.
Lemma camel_in_style s : camel_style (camel s).
Proof. exists [], (camel s), []. rewrite app_nil_r. repeat split; auto. eapply Forall_impl; [|apply camel_alphanumeric]. intros c H. unfold is_letter, is_digit. chars. Qed.
Lemma lowercase_idem s : lowercase (lowercase s) = lowercase s.
Proof. unfold lowercase. rewrite map_map. apply map_ext. intro c. chars. Qed.
Lemma lowercase_upper s : lowercase (map upper_char s) = lowercase s.
Proof. unfold lowercase, upper_char, lower. rewrite map_map. apply map_ext. intro c. chars. Qed.
Lemma spelling_snake s : spelling (snake s) = spelling s.
Proof. unfold spelling. fold (letters (snake s)) (letters s). rewrite letters_snake. apply lowercase_idem. Qed.
Lemma spelling_camel s : spelling (camel s) = spelling s.
Proof.
  unfold spelling. fold (letters (camel s)) (letters s). rewrite (letters_all _ (camel_alphanumeric s)), <- concat_words. unfold camel. induction (words s) as [|w ws IH]; [reflexivity|]. cbn [flat_map concat]. rewrite !lowercase_app, IH. f_equal.
  destruct w as [|c r]; [reflexivity|]. cbn [capitalize]. change (lowercase (upper_char c :: lowercase r)) with (lowercase (map upper_char [c]) ++ lowercase (lowercase r)). rewrite lowercase_upper, lowercase_idem. reflexivity.
Qed.
Lemma spelling_shouty s : spelling (shouty s) = spelling s.
Proof.
  unfold spelling. fold (letters (shouty s)) (letters s). unfold shouty. rewrite letters_join.
  - rewrite <- concat_words, <- concat_map. apply lowercase_upper.
  - eapply Forall_impl; [|apply loud_words]. intros w (_ & F). apply upp_alphanumeric, F.
Qed.

(** * The set of warnings *)

Lemma warning_eqb_eq a b : warning_eqb a b = true <-> a = b.
Proof.
  destruct a, b; cbn [warning_eqb]; rewrite ?andb_true_iff, ?text_eqb_eq, ?key_exact_eq; try (split; [discriminate|intro E; discriminate E]); split.
  all: try (intros ((-> & ->) & ->); reflexivity); try (intros (-> & ->); reflexivity); try (intro E; inversion E; auto).
Qed.
Lemma in_insert w ws x : In x (insert w ws) <-> x = w \/ In x ws.
Proof.
  unfold insert. destruct (existsb (warning_eqb w) ws) eqn:E.
  - apply existsb_exists in E as (y & I & E). apply warning_eqb_eq in E. subst y. split; [auto|]. intros [-> |H]; assumption.
  - rewrite in_app_iff. cbn [In]. split; [intros [H|[H|[] ] ]; auto|intros [H|H]; auto].
Qed.
Lemma nodup_insert w ws : NoDup ws -> NoDup (insert w ws).
Proof.
  intro N. unfold insert. destruct (existsb (warning_eqb w) ws) eqn:E; [exact N|]. apply NoDup_rev in N. rewrite <- (rev_involutive (ws ++ [w])). apply NoDup_rev. rewrite rev_app_distr. cbn [rev app]. constructor; [|exact N].
  intro I. apply in_rev in I. assert (X : existsb (warning_eqb w) ws = true) by (apply existsb_exists; exists w; split; [exact I|apply warning_eqb_eq; reflexivity]). rewrite X in E. discriminate E.
Qed.
Definition inserts (l ws : list warning) : list warning := fold_left (fun ws w => insert w ws) l ws.
Lemma inserts_app a b ws : inserts (a ++ b) ws = inserts b (inserts a ws).
Proof. apply fold_left_app. Qed.
Lemma in_inserts l : forall ws x, In x (inserts l ws) <-> In x l \/ In x ws.
Proof.
  induction l as [|w l IH]; intros ws x; [cbn; tauto|]. cbn [inserts fold_left]. fold (inserts l (insert w ws)). rewrite IH, in_insert. cbn [In]. split; [intros [H|[H|H] ]; auto|intros [ [H|H]|H]; auto].
Qed.
Lemma nodup_inserts l : forall ws, NoDup ws -> NoDup (inserts l ws).
Proof. induction l as [|w l IH]; intros ws N; [exact N|]. apply IH, nodup_insert, N. Qed.

(** The warning about a subject *)
Definition warn (x : subject) : warning :=
  match x with Package p => PackageCase p (snake p) | TypeName k => TypeNameCase k (camel (key_name k)) | Member k n => FieldCase k n (snake n) | ConstantName k n => ConstantCase k n (shouty n) end.
Definition fine (x : subject) : bool :=
  match x with Package n | Member _ n => is_permissive_snake_case n | TypeName k => is_permissive_upper_camel_case (key_name k) | ConstantName _ n => text_eqb n (shouty n) end.
Lemma about_warn x : about (warn x) = x.
Proof. destruct x; reflexivity. Qed.
Lemma fine_style x : fine x = true <-> in_style x (name_in x).
Proof. destruct x; [apply snake_case_style|apply camel_case_style|apply snake_case_style|apply constant_style]. Qed.
Lemma warn_proper x : in_style x (suggestion (warn x)) /\ spelling (suggestion (warn x)) = spelling (name_in x).
Proof.
  destruct x; cbn [warn suggestion in_style name_in]; (split; [try apply snake_in_style; try apply camel_in_style; try apply shouty_style|try apply spelling_snake; try apply spelling_camel; try apply spelling_shouty]).
Qed.
Definition message_subjects (k : key) (m : cmessage) : list subject :=
  map (Member k) (match c_kind m with CStruct fs => flat_map (fun f => match field_name f with Some n => [n] | None => [] end) fs | CUnion _ vs => map snd vs end) ++
  map (fun c => ConstantName k (fst c)) (c_constants m).
Definition subjects (e : key * compiled) : list subject :=
  map Package (key_path (fst e)) ++ [TypeName (fst e)] ++ flat_map (message_subjects (fst e)) (messages (snd e)).
Definition bad (l : list subject) : list warning := map warn (filter (fun x => negb (fine x)) l).
Lemma bad_app a b : bad (a ++ b) = bad a ++ bad b.
Proof. unfold bad. rewrite filter_app, map_app. reflexivity. Qed.
Lemma bad_cons x l ws : inserts (bad (x :: l)) ws = inserts (bad l) (if fine x then ws else insert (warn x) ws).
Proof. unfold bad. cbn [filter]. destruct (fine x); reflexivity. Qed.
Lemma pre_inserts k ws : check_pre_compile k ws = inserts (bad (map Package (key_path k) ++ [TypeName k])) ws.
Proof.
  unfold check_pre_compile. rewrite bad_app, inserts_app. assert (E : fold_left check_part (key_path k) ws = inserts (bad (map Package (key_path k))) ws).
  { revert ws. induction (key_path k) as [|p l IH]; intro ws; [reflexivity|]. cbn [fold_left map]. rewrite bad_cons. apply IH. }
  rewrite E, bad_cons. reflexivity.
Qed.
Lemma message_inserts k m ws : check_message k m ws = inserts (bad (message_subjects k m)) ws.
Proof.
  unfold check_message, message_subjects. rewrite bad_app, inserts_app.
  assert (C : forall l ws, fold_left (check_constant_name k) l ws = inserts (bad (map (fun c => ConstantName k (fst c)) l)) ws).
  { induction l as [|c l IH]; intro us; [reflexivity|]. cbn [fold_left map]. rewrite bad_cons. apply IH. }
  rewrite C. f_equal. destruct (c_kind m) as [fs|n vs].
  - revert ws. induction fs as [|f fs IH]; intro ws; [reflexivity|]. cbn [fold_left flat_map]. unfold check_field at 2. destruct (field_name f) as [n|]; [|apply IH]. cbn [app map]. rewrite bad_cons. apply IH.
  - revert ws. induction vs as [|v vs IH]; intro ws; [reflexivity|]. cbn [fold_left map]. rewrite bad_cons. apply IH.
Qed.
Lemma type_inserts e ws : check_type ws e = inserts (bad (subjects e)) ws.
Proof.
  unfold check_type, subjects. rewrite app_assoc, bad_app, inserts_app, pre_inserts. generalize (inserts (bad (map Package (key_path (fst e)) ++ [TypeName (fst e)])) ws). clear ws. intro ws. unfold check_post_compile, messages.
  destruct (compiled_kind (snd e)) as [m|a b]; cbn [flat_map]; rewrite !message_inserts; [rewrite app_nil_r; reflexivity|]. rewrite app_nil_r, bad_app, inserts_app. reflexivity.
Qed.
Lemma warnings_inserts results : warnings results = inserts (bad (flat_map subjects results)) [].
Proof.
  unfold warnings. generalize (@nil warning). induction results as [|e l IH]; intro ws; [reflexivity|]. cbn [fold_left flat_map]. rewrite bad_app, inserts_app, <- type_inserts. apply IH.
Qed.
Lemma member_names_of f n (fs : list (field cmessage)) : In f fs -> field_name f = Some n -> exists t, In (MemberData t n) (map member_of_field fs).
Proof. intros I E. destruct f as [b a|t name a]; [discriminate E|]. injection E as ->. exists t. apply in_map_iff. exists (FData t n a). auto. Qed.
Lemma subjects_occur results x : In x (flat_map subjects results) <-> occurs results x.
Proof.
  rewrite in_flat_map. split.
  - intros ((k & c) & I & J). unfold subjects in J. cbn [fst snd] in J. apply in_app_or in J as [J|J]; [apply in_map_iff in J as (p & <- & J); apply (oc_package _ k c); assumption|].
    destruct J as [<- |J]; [apply (oc_type _ k c), I|]. apply in_flat_map in J as (m & M & J). unfold message_subjects in J. apply in_app_or in J as [J|J].
    + apply in_map_iff in J as (n & <- & J). assert (X : exists t, In (MemberData t n) (members (c_kind m))); [|destruct X as (t & X); apply (oc_member _ k c m t); assumption]. unfold members. destruct (c_kind m) as [fs|b vs].
      * apply in_flat_map in J as (f & F & J). destruct (field_name f) as [n'|] eqn:E; [|destruct J]. destruct J as [-> |[] ]. apply (member_names_of f); assumption.
      * apply in_map_iff in J as ((t & n') & <- & J). exists t. apply in_map_iff. exists (t, n'). auto.
    + apply in_map_iff in J as ((n & v) & <- & J). apply (oc_constant _ k c m n v); assumption.
  - intros [k c p I J|k c I|k c m t name I M J|k c m name v I M J]; exists (k, c); (split; [exact I|]); unfold subjects; cbn [fst snd]; rewrite !in_app_iff; [left; apply in_map, J|right; left; left; reflexivity| |]; right; right; apply in_flat_map; exists m; (split; [exact M|]); unfold message_subjects; rewrite in_app_iff.
    + left. apply in_map. unfold members in J. destruct (c_kind m) as [fs|b vs].
      * apply in_map_iff in J as (f & E & F). apply in_flat_map. exists f. split; [exact F|]. destruct f; [discriminate E|]. injection E as -> ->. left. reflexivity.
      * apply in_map_iff in J as ((t' & n) & E & F). injection E as -> ->. apply in_map_iff. exists (t, name). auto.
    + right. apply in_map_iff. exists (name, v). auto.
Qed.
Lemma in_bad l w : In w (bad l) <-> exists x, w = warn x /\ In x l /\ fine x = false.
Proof.
  unfold bad. rewrite in_map_iff. split; [intros (x & <- & I); apply filter_In in I as (I & F); exists x; split; [reflexivity|]; split; [exact I|]; destruct (fine x); [discriminate F|reflexivity]|].
  intros (x & -> & I & F). exists x. split; [reflexivity|]. apply filter_In. split; [exact I|]. rewrite F. reflexivity.
Qed.
Lemma in_warnings results w : In w (warnings results) <-> exists x, w = warn x /\ occurs results x /\ ~ in_style x (name_in x).
Proof.
  rewrite warnings_inserts, in_inserts, in_bad. cbn [In]. split.
  - intros [(x & -> & I & F)|[] ]. exists x. split; [reflexivity|]. split; [apply subjects_occur, I|]. rewrite <- fine_style, F. discriminate.
  - intros (x & -> & I & F). left. exists x. split; [reflexivity|]. split; [apply subjects_occur, I|]. rewrite <- fine_style in F. destruct (fine x); [exfalso; apply F; reflexivity|reflexivity].
Qed.
Lemma warnings_nodup results : NoDup (map about (warnings results)).
Proof.
  assert (N : NoDup (warnings results)) by (rewrite warnings_inserts; apply nodup_inserts; constructor). assert (W : forall w, In w (warnings results) -> w = warn (about w)) by (intros w I; apply in_warnings in I as (x & -> & _); rewrite about_warn; reflexivity).
  induction N as [|w ws I N IH]; [constructor|]. cbn [map]. constructor; [|apply IH; intros v V; apply W; right; exact V]. intro J. apply in_map_iff in J as (v & E & V). apply I. rewrite (W w (or_introl eq_refl)), <- E, <- (W v (or_intror V)). exact V.
Qed.
