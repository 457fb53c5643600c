(** Proofs about the generator of Rust code. *)
From Coq Require Import String Lia Permutation.
From Verif Require Import Base EncModel EncSpec BlsModel BlsSpec GenModel GenSpec ExprModel ExprProofs PkgModel PkgSpec PkgProofs CompModel CompSpec CodeModel CodeSpec.
Open Scope list_scope.
Open Scope N_scope.
Ltac Zify.zify_post_hook ::= Z.div_mod_to_equations.

(** * External packages *)

Lemma path_eqb_eq a : forall b, path_eqb a b = true <-> a = b.
Proof.
  induction a as [|x a IH]; intros [|y b]; cbn [path_eqb]; split; intro H; try discriminate; try reflexivity.
  - apply andb_true_iff in H as (H1 & H2). apply text_eqb_eq in H1. apply IH in H2. congruence.
  - injection H as -> ->. apply andb_true_iff. split; [apply text_eqb_eq; reflexivity|apply IH; reflexivity].
Qed.
Lemma get_package_in e p r : get_package e p = Some r -> In (p, r) e.
Proof.
  unfold get_package. destruct (find _ e) as [ [q r'] |] eqn:F; [|discriminate]. intro H. injection H as <-. apply find_some in F as (F & E). apply path_eqb_eq in E. cbn [fst] in E. subst. exact F.
Qed.
Lemma get_package_some e p r : is_map e -> In (p, r) e -> get_package e p = Some r.
Proof.
  unfold is_map, get_package. induction e as [|[q r'] e IH]; [intros _ []|]. intros N I. cbn [map fst] in N. apply NoDup_cons_iff in N as (N1 & N2). cbn [find fst]. destruct (path_eqb q p) eqn:E.
  - apply path_eqb_eq in E. subst q. destruct I as [I|I]; [injection I as ->; reflexivity|]. exfalso. apply N1, in_map_iff. exists (p, r). auto.
  - destruct I as [I|I]; [injection I as -> ->; assert (X : path_eqb p p = true) by (apply path_eqb_eq; reflexivity); congruence|]. apply IH; assumption.
Qed.
Lemma get_package_none e p : get_package e p = None -> forall r, ~ In (p, r) e.
Proof.
  unfold get_package. destruct (find _ e) as [x|] eqn:F; [discriminate|]. intros _ r I. apply (find_none _ _ F) in I. cbn [fst] in I. assert (X : path_eqb p p = true) by (apply path_eqb_eq; reflexivity). congruence.
Qed.
Lemma external_prefix_spec e p : forall n, (n <= length p)%nat ->
  match external_prefix e p n with
  | Some m => exists i rust, (1 <= i <= n)%nat /\ In (firstn i p, rust) e /\ m = rust ++ skipn i p /\ get_package e (firstn i p) = Some rust /\ forall j, (i < j <= n)%nat -> forall r, ~ In (firstn j p, r) e
  | None => forall j, (1 <= j <= n)%nat -> forall r, ~ In (firstn j p, r) e
  end.
Proof.
  induction n as [|n IH]; intro L; [cbn [external_prefix]; intros; lia|]. change (external_prefix e p (S n)) with (match get_package e (firstn (S n) p) with Some rust => Some (rust ++ skipn (S n) p) | None => external_prefix e p n end).
  destruct (get_package e (firstn (S n) p)) as [r|] eqn:G.
  - exists (S n), r. split; [lia|]. split; [apply get_package_in, G|]. split; [reflexivity|]. split; [exact G|]. intros; lia.
  - specialize (IH ltac:(lia)). destruct (external_prefix e p n) as [m|].
    + destruct IH as (i & rust & A & B & C & G1 & D). exists i, rust. split; [lia|]. split; [exact B|]. split; [exact C|]. split; [exact G1|]. intros j J. destruct (Nat.eq_dec j (S n)) as [->|]; [apply get_package_none, G|apply D; lia].
    + intros j J. destruct (Nat.eq_dec j (S n)) as [->|]; [apply get_package_none, G|apply IH; lia].
Qed.
Lemma inside_firstn p before after : inside p before after -> before = firstn (length before) p /\ after = skipn (length before) p /\ (1 <= length before <= length p)%nat.
Proof.
  intros (-> & N). rewrite firstn_app, Nat.sub_diag, firstn_all, firstn_O, app_nil_r. rewrite skipn_app, skipn_all, Nat.sub_diag, skipn_O. rewrite app_length. destruct before; [contradiction|]. cbn [length]. split; [reflexivity|]. split; [reflexivity|lia].
Qed.
Lemma firstn_inside p n : (1 <= n <= length p)%nat -> inside p (firstn n p) (skipn n p).
Proof. intro L. split; [symmetry; apply firstn_skipn|]. intro E. apply (f_equal (@length text)) in E. rewrite firstn_length in E. cbn [length] in E. lia. Qed.
Lemma external_some e p m : is_map e -> external_module p e = Some m <-> external_for e p m.
Proof.
  intro M. unfold external_module. pose proof (external_prefix_spec e p (length p) (le_n _)) as S. split; intro H.
  - rewrite H in S. destruct S as (i & rust & A & B & -> & _ & D). apply (xf e p (firstn i p)); [apply firstn_inside; lia|exact B|]. intros b a r I J. destruct (inside_firstn p b a I) as (E1 & _ & L). rewrite firstn_length_le by lia.
    destruct (Nat.le_gt_cases (length b) i) as [|G]; [assumption|]. exfalso. apply (D (length b) ltac:(lia) r). rewrite <- E1. exact J.
  - destruct H as [before after rust I J L]. destruct (inside_firstn p before after I) as (E1 & E2 & Lb). destruct (external_prefix e p (length p)) as [m|].
    + destruct S as (i & rust' & A & B & -> & G & D). assert (E : i = length before).
      { apply Nat.le_antisymm.
        - pose proof (L (firstn i p) (skipn i p) rust' (firstn_inside p i A) B) as X. rewrite firstn_length_le in X by lia. exact X.
        - destruct (Nat.le_gt_cases (length before) i) as [|Gt]; [assumption|]. exfalso. apply (D (length before) ltac:(lia) rust). rewrite <- E1. exact J. }
      subst i. rewrite <- E1 in G. rewrite (get_package_some e before rust M J) in G. injection G as <-. rewrite <- E2. reflexivity.
    + exfalso. apply (S (length before) ltac:(lia) rust). rewrite <- E1. exact J.
Qed.
Lemma external_none e p : external_module p e = None <-> not_external e p.
Proof.
  unfold external_module. pose proof (external_prefix_spec e p (length p) (le_n _)) as S. split; intro H.
  - rewrite H in S. intros b a r I. destruct (inside_firstn p b a I) as (E1 & _ & L). rewrite E1. apply S. exact L.
  - destruct (external_prefix e p (length p)) as [m|]; [|reflexivity]. destruct S as (i & rust & A & B & _). exfalso. exact (H _ _ rust (firstn_inside p i A) B).
Qed.

(** * Words *)

Definition letters (s : text) : text := filter alphanumeric s.
Lemma lowercase_app a b : lowercase (a ++ b) = lowercase a ++ lowercase b.
Proof. apply map_app. Qed.
Lemma words_of_concat : forall s m w, concat (words_of m w s) = (if s then [] else w) ++ s.
Proof.
  induction s as [|c r IH]; intros m w; [reflexivity|]. cbn [words_of]. destruct r as [|n r']; [cbn [concat]; rewrite app_nil_r; reflexivity|]. set (r := n :: r') in *.
  destruct (match next_mode m c with Lowercase => upper n | _ => false end); [cbn [concat]; rewrite IH; cbn [app]; rewrite <- app_assoc; reflexivity|].
  destruct (match m with Uppercase => upper c && lower n | _ => false end); [cbn [concat]; rewrite IH; reflexivity|]. rewrite IH. subst r. cbn match. rewrite <- app_assoc. reflexivity.
Qed.
Lemma letters_split s : concat (split_words s) = letters s.
Proof.
  induction s as [|c r IH]; [reflexivity|]. cbn [split_words letters filter]. destruct (alphanumeric c) eqn:E; [|exact IH]. fold (letters r). rewrite <- IH. destruct (split_words r) as [|w ws]; reflexivity.
Qed.
Lemma split_alphanumeric s : Forall (Forall (fun c => alphanumeric c = true)) (split_words s).
Proof.
  induction s as [|c r IH]; [repeat constructor|]. cbn [split_words]. destruct (alphanumeric c) eqn:E; [|constructor; [constructor|exact IH] ]. destruct (split_words r) as [|w ws]; [repeat constructor; exact E|]. inversion IH; subst. constructor; [constructor; assumption|assumption].
Qed.
Lemma concat_words s : concat (words s) = letters s.
Proof.
  unfold words. rewrite <- letters_split. induction (split_words s) as [|w ws IH]; [reflexivity|]. cbn [flat_map concat]. rewrite concat_app, IH, words_of_concat. destruct w; reflexivity.
Qed.
Lemma letters_app a b : letters (a ++ b) = letters a ++ letters b.
Proof. apply filter_app. Qed.
Lemma letters_all s : Forall (fun c => alphanumeric c = true) s -> letters s = s.
Proof. induction 1 as [|c s H _ IH]; [reflexivity|]. unfold letters. cbn [filter]. rewrite H. f_equal. exact IH. Qed.
Lemma letters_are s : Forall (fun c => alphanumeric c = true) (letters s).
Proof. apply Forall_forall. intros c I. apply filter_In in I. tauto. Qed.
Ltac chars := unfold alphanumeric, upper, lower, digit in *; repeat match goal with
  | H : context [?a <=? ?b] |- _ => destruct (N.leb_spec a b) | |- context [?a <=? ?b] => destruct (N.leb_spec a b) end; cbn [andb orb] in *; try reflexivity; try discriminate; try lia.
Lemma lowercase_alphanumeric s : Forall (fun c => alphanumeric c = true) s -> Forall (fun c => alphanumeric c = true) (lowercase s).
Proof. unfold lowercase. induction 1 as [|c s H _ IH]; constructor; [|exact IH]. chars. Qed.
Lemma words_alphanumeric s : Forall (Forall (fun c => alphanumeric c = true)) (words s).
Proof.
  apply Forall_forall. intros w I. apply Forall_forall. intros c J. assert (K : In c (concat (words s))) by (apply in_concat; exists w; auto). rewrite concat_words in K. apply filter_In in K. tauto.
Qed.
Lemma letters_join ws : Forall (Forall (fun c => alphanumeric c = true)) ws -> letters (join_words ws) = concat ws.
Proof.
  induction 1 as [|w ws H _ IH]; [reflexivity|]. cbn [join_words concat]. destruct ws as [|w' ws]; [cbn [concat]; rewrite app_nil_r; apply letters_all, H|].
  rewrite letters_app, (letters_all w H). f_equal. rewrite <- IH. reflexivity.
Qed.
Lemma letters_snake s : letters (snake s) = lowercase (letters s).
Proof.
  unfold snake. rewrite letters_join.
  - rewrite <- concat_words. unfold lowercase. rewrite concat_map. reflexivity.
  - apply Forall_map. eapply Forall_impl; [|apply words_alphanumeric]. intros w. apply lowercase_alphanumeric.
Qed.
Lemma snake_chars s : Forall (fun c => alphanumeric c = true \/ c = 95) (snake s).
Proof.
  unfold snake. assert (H : Forall (Forall (fun c => alphanumeric c = true)) (map lowercase (words s))) by (apply Forall_map; eapply Forall_impl; [|apply words_alphanumeric]; intros w; apply lowercase_alphanumeric).
  induction H as [|w ws H _ IH]; [constructor|]. cbn [join_words]. assert (A : Forall (fun c => alphanumeric c = true \/ c = 95) w) by (eapply Forall_impl; [|exact H]; auto). destruct ws as [|w' ws]; [exact A|]. apply Forall_app. split; [exact A|]. constructor; [right; reflexivity|exact IH].
Qed.

(** * Versions *)

Lemma show_digits n : n < 1000 -> Forall is_digit (show_u8 n) /\ show_u8 n <> [].
Proof.
  intro L. unfold show_u8. split.
  - rewrite !Forall_app. split; [destruct (N.leb_spec 100 n)|split; [destruct (N.leb_spec 10 n)|] ]; try apply Forall_nil; (apply Forall_cons; [unfold is_digit; lia|apply Forall_nil]).
  - intro E. apply (f_equal (@length N)) in E. rewrite !app_length in E. cbn [length] in E. lia.
Qed.
Lemma last_underscore a b c d : Forall is_digit b -> Forall is_digit d -> a ++ 95 :: b = c ++ 95 :: d -> a = c /\ b = d.
Proof.
  intros B D. revert c. induction a as [|x a IH]; intros [|y c] E; cbn [app] in E.
  - injection E as E. auto.
  - exfalso. injection E as _ E. rewrite E in B. apply Forall_app in B as (_ & B). inversion B as [|? ? X]; subst. unfold is_digit in X. lia.
  - exfalso. injection E as _ E. rewrite <- E in D. apply Forall_app in D as (_ & D). inversion D as [|? ? X]; subst. unfold is_digit in X. lia.
  - injection E as -> E. destruct (IH c E) as (-> & ->). auto.
Qed.
Lemma show_injective a b : a < 256 -> b < 256 -> show_u8 a = show_u8 b -> a = b.
Proof.
  intros A B E. unfold show_u8 in E.
  assert (D : forall n, n = 100 * (n / 100) + 10 * (n / 10 mod 10) + n mod 10) by (intro; lia).
  destruct (N.leb_spec 100 a), (N.leb_spec 100 b), (N.leb_spec 10 a), (N.leb_spec 10 b); cbn [app] in E; try lia; try discriminate E;
    pose proof (f_equal (fun l => nth 0 l 0) E) as E0; pose proof (f_equal (fun l => nth 1 l 0) E) as E1; pose proof (f_equal (fun l => nth 2 l 0) E) as E2; cbn [nth] in E0, E1, E2; rewrite (D a), (D b); lia.
Qed.
Lemma version_injective a b : proper a -> proper b -> version_module a = version_module b -> snake (key_name a) = snake (key_name b) /\ key_major a = key_major b /\ key_minor a = key_minor b.
Proof.
  intros A B E. pose proof (pr_major a A). pose proof (pr_minor a A). pose proof (pr_major b B). pose proof (pr_minor b B). unfold version_module, underscore in E.
  replace (snake (key_name a) ++ 95 :: show_u8 (key_major a) ++ 95 :: show_u8 (key_minor a)) with ((snake (key_name a) ++ 95 :: show_u8 (key_major a)) ++ 95 :: show_u8 (key_minor a)) in E by (rewrite <- app_assoc; reflexivity).
  replace (snake (key_name b) ++ 95 :: show_u8 (key_major b) ++ 95 :: show_u8 (key_minor b)) with ((snake (key_name b) ++ 95 :: show_u8 (key_major b)) ++ 95 :: show_u8 (key_minor b)) in E by (rewrite <- app_assoc; reflexivity).
  apply last_underscore in E as (E & E3); try (apply show_digits; lia). apply last_underscore in E as (E1 & E2); try (apply show_digits; lia). split; [exact E1|]. split; apply show_injective; assumption || lia.
Qed.
Lemma make_cases s : (s <> [95] /\ make_rust_identifier s = s) \/ (s = [95] /\ make_rust_identifier s = [95; 48]).
Proof.
  unfold make_rust_identifier, underscore. destruct (text_eqb s [95]) eqn:E; [right; apply text_eqb_eq in E; auto|left]. split; [|reflexivity]. intros ->. discriminate E.
Qed.
Lemma make_part s : rust_part s (make_rust_identifier s).
Proof. destruct (make_cases s) as [(N & ->)|(-> & ->)]; constructor; assumption. Qed.
Lemma make_injective a b : a <> [95] -> b <> [95] -> make_rust_identifier a = make_rust_identifier b -> a = b.
Proof. intros A B. destruct (make_cases a) as [(_ & ->)|(X & _)]; [|contradiction]. destruct (make_cases b) as [(_ & ->)|(X & _)]; [|contradiction]. auto. Qed.
Lemma map_make_injective a : forall b, Forall (fun w => w <> [95]) a -> Forall (fun w => w <> [95]) b -> map make_rust_identifier a = map make_rust_identifier b -> a = b.
Proof.
  induction a as [|x a IH]; intros [|y b] A B E; cbn [map] in E; try discriminate E; [reflexivity|]. injection E as E1 E2. inversion A; inversion B; subst. f_equal; [apply make_injective; assumption|apply IH; assumption].
Qed.
(** Types in the same module with the same name have the same key, except for suffixes. *)
Lemma same_place a b : proper a -> proper b -> Forall (fun w => w <> [95]) (key_path a) -> Forall (fun w => w <> [95]) (key_path b) ->
  map make_rust_identifier (key_path a) ++ [version_module a] = map make_rust_identifier (key_path b) ++ [version_module b] ->
  key_path a = key_path b /\ snake (key_name a) = snake (key_name b) /\ key_major a = key_major b /\ key_minor a = key_minor b.
Proof.
  intros A B PA PB E. apply app_inj_tail in E as (E1 & E2). split; [apply map_make_injective; assumption|]. apply version_injective; assumption.
Qed.
Lemma identifier_not_empty s : identifier s -> s <> [].
Proof. intros (c & r & -> & _). discriminate. Qed.
Lemma letters_lowercase_length s : length (lowercase s) = length s.
Proof. apply map_length. Qed.
Lemma make_length s t : make_rust_identifier s = t -> letters t = letters s \/ (s = [95] /\ t = [95; 48]).
Proof. intros <-. destruct (make_cases s) as [(_ & ->)|(-> & ->)]; auto. Qed.
Lemma suffix_inj a b s t : (s = name_of "Request" \/ s = name_of "Response" \/ s = []) -> (t = name_of "Request" \/ t = name_of "Response" \/ t = []) ->
  snake a = snake b -> make_rust_identifier a ++ s = make_rust_identifier b ++ t -> a = b /\ s = t.
Proof.
  intros S T Sn E. assert (L : length (letters a) = length (letters b)) by (rewrite <- (letters_lowercase_length (letters a)), <- (letters_lowercase_length (letters b)), <- !letters_snake, Sn; reflexivity).
  assert (X : forall c d : text, length c = length d -> c ++ s = d ++ t -> c = d /\ s = t).
  { intros c d. revert d. induction c as [|x c IH]; intros [|y d] Lc Ec; cbn [length] in Lc; try lia; [auto|]. cbn [app] in Ec. injection Ec as -> Ec. destruct (IH d ltac:(lia) Ec) as (-> & ->). auto. }
  assert (Y : (length (letters (make_rust_identifier a)) + length (letters s) = length (letters (make_rust_identifier b)) + length (letters t))%nat) by (rewrite <- !app_length, <- !letters_app, E; reflexivity).
  destruct (make_cases a) as [(Na & Ea)|(Ha & Ea)], (make_cases b) as [(Nb & Eb)|(Hb & Eb)]; rewrite Ea, Eb in *.
  - assert (Z : length (letters s) = length (letters t)) by lia. assert (W : length s = length t) by (destruct S as [-> | [-> | ->] ], T as [-> | [-> | ->] ]; vm_compute in Z |- *; congruence).
    apply X; [|exact E]. apply (f_equal (@length N)) in E. rewrite !app_length in E. lia.
  - subst b. exfalso. assert (La : length (letters a) = 0%nat) by (rewrite L; reflexivity). change (letters [95; 48]) with [48] in Y. cbn [length] in Y. rewrite La in Y. apply (f_equal (@rev N)) in E. rewrite !rev_app_distr in E. destruct S as [-> | [-> | ->] ], T as [-> | [-> | ->] ]; try (vm_compute in Y; discriminate Y); vm_compute in E; discriminate E.
  - subst a. exfalso. assert (La : length (letters b) = 0%nat) by (rewrite <- L; reflexivity). change (letters [95; 48]) with [48] in Y. cbn [length] in Y. rewrite La in Y. apply (f_equal (@rev N)) in E. rewrite !rev_app_distr in E. destruct S as [-> | [-> | ->] ], T as [-> | [-> | ->] ]; try (vm_compute in Y; discriminate Y); vm_compute in E; discriminate E.
  - subst a b. split; [reflexivity|]. apply app_inv_head in E. exact E.
Qed.

(** * What is generated *)

Definition type_rust_name (k : key) (r : role) (e : packages) : rust_name :=
  match r with RoleMessage => for_message_type k e | RoleRequest => with_suffix (for_message_type k e) "Request" | RoleResponse => with_suffix (for_message_type k e) "Response" end.
Lemma rust_type_keeps k m n r t e g : generate_rust_type k m n r t e = Done g ->
  g_key g = k /\ g_name g = n /\ g_role g = r /\ g_size g = c_length m /\ g_extent g = c_extent m /\ g_deprecated g = c_deprecated m.
Proof.
  unfold generate_rust_type. destruct (c_kind m) as [fs|b vs]; destruct (has_enum_directive t).
  - unfold enum_from_struct. destruct fs as [|f [|f' fs] ]; try discriminate; destruct f as [? ?|ty ? ?]; try discriminate; destruct ty as [s|s ?|s ?]; try discriminate; destruct s as [? ?|p|?]; try discriminate; destruct p; try discriminate.
    destruct (check_constants _ _ _); cbn [obind]; try discriminate. destruct (constant_variants _ _); cbn [obind]; try discriminate. intro H. injection H as <-. repeat split.
  - intro H. injection H as <-. repeat split.
  - discriminate.
  - destruct (make_variants e 0 vs); cbn [obind]; try discriminate. intro H. injection H as <-. repeat split.
Qed.
Lemma from_dsdl comments k c e l : generate_from_dsdl comments k c e = Done l ->
  match compiled_kind c with
  | KMessage m => exists g, generate_rust_type k m (type_rust_name k RoleMessage e) RoleMessage (comments k RoleMessage) e = Done g /\
      l = match port_id c with Some id => [IConstant (constant_name (for_message_type k e) "SUBJECT") PortSubject id (c_deprecated m)] | None => [] end ++ [IType g]
  | KService request response => exists g g', generate_rust_type k request (type_rust_name k RoleRequest e) RoleRequest (comments k RoleRequest) e = Done g /\
      generate_rust_type k response (type_rust_name k RoleResponse e) RoleResponse (comments k RoleResponse) e = Done g' /\
      l = match port_id c with Some id => [IConstant (constant_name (for_message_type k e) "SERVICE") PortService id (c_deprecated request)] | None => [] end ++ [IType g; IType g']
  end.
Proof.
  unfold generate_from_dsdl. destruct (compiled_kind c) as [m|a b].
  - change (type_rust_name k RoleMessage e) with (for_message_type k e). destruct (generate_rust_type k m _ _ _ e) as [g| |]; cbn [obind]; try discriminate. intro H. injection H as <-. exists g. split; reflexivity.
  - unfold for_service_type. change (type_rust_name k RoleRequest e) with (with_suffix (for_message_type k e) "Request"). change (type_rust_name k RoleResponse e) with (with_suffix (for_message_type k e) "Response").
    destruct (generate_rust_type k a _ _ _ e) as [g| |]; cbn [obind]; try discriminate. destruct (generate_rust_type k b _ _ _ e) as [g'| |]; cbn [obind]; try discriminate. intro H. injection H as <-. exists g, g'. repeat split.
Qed.
Definition generated_as (comments : key -> role -> text) (e : packages) (k : key) (c : compiled) (g : gtype) : Prop :=
  exists r m, declared_in c r m /\ generate_rust_type k m (type_rust_name k r e) r (comments k r) e = Done g.
Lemma from_dsdl_types comments k c e l g : generate_from_dsdl comments k c e = Done l -> In (IType g) l <-> generated_as comments e k c g.
Proof.
  intro H. apply from_dsdl in H. unfold generated_as, declared_in. destruct (compiled_kind c) as [m|a b].
  - destruct H as (g0 & H & ->). split.
    + intro I. apply in_app_or in I as [I|I]; [destruct (port_id c); [destruct I as [I|[] ]; discriminate I|destruct I]|]. destruct I as [I|[] ]. injection I as <-. exists RoleMessage, m. auto.
    + intros (r & m' & D & G). apply in_or_app. right. left. f_equal. destruct r; try contradiction. subst m'. congruence.
  - destruct H as (g0 & g1 & H0 & H1 & ->). split.
    + intro I. apply in_app_or in I as [I|I]; [destruct (port_id c); [destruct I as [I|[] ]; discriminate I|destruct I]|]. destruct I as [I|[I|[] ] ]; injection I as <-; [exists RoleRequest, a|exists RoleResponse, b]; auto.
    + intros (r & m' & D & G). apply in_or_app. right. destruct r; try contradiction; subst m'; [left|right; left]; f_equal; congruence.
Qed.
Lemma items_types comments e pk l g : generate_items comments e pk = Done l ->
  In (IType g) l <-> exists k c, In (k, c) pk /\ external_module (key_path k) e = None /\ generated_as comments e k c g.
Proof.
  revert l. induction pk as [|[k c] pk IH]; intros l H; cbn [generate_items] in H.
  - injection H as <-. split; [intros []|intros (? & ? & [] & _)].
  - destruct (external_module (key_path k) e) eqn:X.
    + rewrite (IH l H). split; intros (k' & c' & I & R); exists k', c'; (split; [|exact R]); [right; exact I|]. destruct I as [I|I]; [|exact I]. injection I as -> ->. destruct R as (R & _). congruence.
    + destruct (generate_from_dsdl comments k c e) as [l1| |] eqn:G; cbn [obind] in H; try discriminate H. destruct (generate_items comments e pk) as [l2| |] eqn:G2; cbn [obind] in H; try discriminate H. injection H as <-.
      rewrite in_app_iff, (from_dsdl_types _ _ _ _ _ g G), (IH l2 eq_refl). split.
      * intros [A|(k' & c' & I & R)]; [exists k, c; split; [left; reflexivity|auto]|exists k', c'; split; [right; exact I|exact R] ].
      * intros (k' & c' & [I|I] & R); [injection I as <- <-; left; apply R|right; exists k', c'; auto].
Qed.
Lemma items_done comments e pk l : generate_items comments e pk = Done l -> forall k c, In (k, c) pk -> external_module (key_path k) e = None -> exists l', generate_from_dsdl comments k c e = Done l' /\ incl l' l.
Proof.
  revert l. induction pk as [|[k0 c0] pk IH]; intros l H k c I X; [destruct I|]. cbn [generate_items] in H. destruct I as [I|I].
  - injection I as -> ->. rewrite X in H. destruct (generate_from_dsdl comments k c e) as [l1| |] eqn:G; cbn [obind] in H; try discriminate H. destruct (generate_items comments e pk) as [l2| |] eqn:G2; cbn [obind] in H; try discriminate H. injection H as <-. exists l1. split; [reflexivity|apply incl_appl, incl_refl].
  - destruct (external_module (key_path k0) e); [apply (IH l H k c I X)|]. destruct (generate_from_dsdl comments k0 c0 e) as [l1| |] eqn:G; cbn [obind] in H; try discriminate H. destruct (generate_items comments e pk) as [l2| |] eqn:G2; cbn [obind] in H; try discriminate H. injection H as <-.
    destruct (IH l2 eq_refl k c I X) as (l' & D & J). exists l'. split; [exact D|]. apply incl_appr, J.
Qed.
Lemma items_from comments e pk l i : generate_items comments e pk = Done l -> In i l -> exists k c l', In (k, c) pk /\ external_module (key_path k) e = None /\ generate_from_dsdl comments k c e = Done l' /\ In i l'.
Proof.
  revert l. induction pk as [|[k0 c0] pk IH]; intros l H I; cbn [generate_items] in H; [injection H as <-; destruct I|]. destruct (external_module (key_path k0) e) eqn:X.
  - destruct (IH l H I) as (k & c & l' & A & B). exists k, c, l'. split; [right; exact A|exact B].
  - destruct (generate_from_dsdl comments k0 c0 e) as [l1| |] eqn:G; cbn [obind] in H; try discriminate H. destruct (generate_items comments e pk) as [l2| |] eqn:G2; cbn [obind] in H; try discriminate H. injection H as <-. apply in_app_or in I as [I|I].
    + exists k0, c0, l1. split; [left; reflexivity|auto].
    + destruct (IH l2 eq_refl I) as (k & c & l' & A & B). exists k, c, l'. split; [right; exact A|exact B].
Qed.
Lemma internal_name k e : external_module (key_path k) e = None -> for_message_type k e = RustName true (map make_rust_identifier (key_path k) ++ [version_module k]) (make_rust_identifier (key_name k)).
Proof. unfold for_message_type. intros ->. reflexivity. Qed.
Lemma type_full_name k r e : external_module (key_path k) e = None ->
  full_name (type_rust_name k r e) = (map make_rust_identifier (key_path k) ++ [version_module k], make_rust_identifier (key_name k) ++ suffix r).
Proof. intro X. unfold full_name, type_rust_name. rewrite (internal_name k e X). destruct r; cbn [with_suffix module_path type_name suffix]; [rewrite app_nil_r| |]; reflexivity. Qed.
Lemma same_names a b r r' e : proper a -> proper b -> Forall (fun w => w <> [95]) (key_path a) -> Forall (fun w => w <> [95]) (key_path b) ->
  external_module (key_path a) e = None -> external_module (key_path b) e = None -> full_name (type_rust_name a r e) = full_name (type_rust_name b r' e) -> a = b /\ r = r'.
Proof.
  intros A B PA PB XA XB E. rewrite (type_full_name a r e XA), (type_full_name b r' e XB) in E. injection E as E1 E2. destruct (same_place a b A B PA PB E1) as (P & S & M & N).
  destruct (suffix_inj (key_name a) (key_name b) (suffix r) (suffix r')) as (K & R); [destruct r; cbn [suffix]; auto|destruct r'; cbn [suffix]; auto|exact S|exact E2|].
  split; [destruct a, b; cbn in P, K, M, N; congruence|]. destruct r, r'; try reflexivity; vm_compute in R; discriminate R.
Qed.
Lemma types_app a b : types (a ++ b) = types a ++ types b.
Proof. apply flat_map_app. Qed.
Lemma in_types l g : In g (types l) <-> In (IType g) l.
Proof. unfold types. rewrite in_flat_map. split; [intros (i & I & J); destruct i; cbn [In] in J; [destruct J as [->|[] ]; exact I|contradiction]|]. intro I. exists (IType g). split; [exact I|left; reflexivity]. Qed.
Lemma same_key_refl k : same_key k k.
Proof. repeat split. Qed.
Lemma types_distinct comments e pk l : generate_items comments e pk = Done l -> distinct pk -> (forall k c, In (k, c) pk -> proper k /\ Forall (fun w => w <> [95]) (key_path k)) -> NoDup (map (fun g => full_name (g_name g)) (types l)).
Proof.
  revert l. induction pk as [|[k c] pk IH]; intros l H D P; [injection H as <-; constructor|]. inversion D as [|x y D1 D2]; subst. assert (P' : forall k' c', In (k', c') pk -> proper k' /\ Forall (fun w => w <> [95]) (key_path k')) by (intros k' c' I; apply (P k' c'); right; exact I).
  cbn [generate_items] in H. destruct (external_module (key_path k) e) eqn:X; [apply (IH l H D2 P')|]. destruct (generate_from_dsdl comments k c e) as [l1| |] eqn:G; cbn [obind] in H; try discriminate H. destruct (generate_items comments e pk) as [l2| |] eqn:G2; cbn [obind] in H; try discriminate H. injection H as <-.
  destruct (P k c (or_introl eq_refl)) as (Pk & Uk). rewrite types_app, map_app. apply nodup_app; [|apply (IH l2 eq_refl D2 P')|].
  - pose proof (from_dsdl _ _ _ _ _ G) as F. destruct (compiled_kind c) as [m|a b].
    + destruct F as (g & _ & ->). rewrite types_app. destruct (port_id c); cbn [types flat_map app map]; (constructor; [intros []|constructor]).
    + destruct F as (g & g' & F1 & F2 & ->). rewrite types_app. apply rust_type_keeps in F1 as (_ & F1 & _). apply rust_type_keeps in F2 as (_ & F2 & _).
      assert (N : full_name (g_name g) <> full_name (g_name g')) by (rewrite F1, F2; intro E; apply same_names in E as (_ & E); [discriminate E|assumption..]).
      destruct (port_id c); cbn [types flat_map app map]; (constructor; [intros [E|[] ]; congruence|constructor; [intros []|constructor] ]).
  - intros n I J. apply in_map_iff in I as (g & <- & I). apply in_map_iff in J as (g' & E & J). apply in_types in I. apply in_types in J. apply (from_dsdl_types _ _ _ _ _ g G) in I. apply (items_types _ _ _ _ g' G2) in J as (k' & c' & J & X' & J').
    destruct I as (r & m & _ & I). destruct J' as (r' & m' & _ & J'). apply rust_type_keeps in I as (_ & I & _). apply rust_type_keeps in J' as (_ & J' & _). rewrite I, J' in E. destruct (P' k' c' J) as (Pk' & Uk').
    apply same_names in E as (E & _); try assumption. subst k'. rewrite Forall_forall in D1. exact (D1 _ J (same_key_refl k)).
Qed.
