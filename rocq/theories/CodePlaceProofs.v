(** Proofs about where generated types are, what they are made of, and that their names are different. *)
From Coq Require Import String QArith Qcanon.
From Verif Require Import Base EncModel EncSpec BlsModel BlsSpec GenModel ExprModel ExprSpec ExprProofs PkgModel PkgSpec CompModel CompSpec CompProofs CompProps CompAcceptProofs CodeModel CodeSpec CodeProofs CodeItemProofs CodeNameProofs CodeEnumProofs.
Open Scope list_scope.
Open Scope N_scope.
Ltac Zify.zify_post_hook ::= Z.div_mod_to_equations.

Lemma code_items comments pk e t : generate_code comments pk e = Done t -> exists l, generate_items comments e pk = Done l /\ t = tree_of l.
Proof. unfold generate_code. destruct (generate_items comments e pk) as [l| |]; cbn [obind]; try discriminate. intro H. injection H as <-. exists l. split; reflexivity. Qed.
Lemma at_tree i p l : In i (items_at p (tree_of l)) <-> In i l /\ module_path (item_name i) = p.
Proof. rewrite items_at_tree, filter_In, path_eqb_eq. tauto. Qed.

Lemma referenced_right k e : is_map e -> proper k -> referenced_as e k (for_message_type k e).
Proof.
  intros M P. pose proof (named_for_right k RoleMessage e) as N. cbn [type_rust_name] in N. destruct (external_module (key_path k) e) as [m|] eqn:X.
  - unfold for_message_type in *. rewrite X in *. cbn [type_name] in N. constructor; [apply (external_some e _ m M), X|apply version_part_right, P|exact N].
  - pose proof (module_for_right k e P X) as F. unfold for_message_type in *. rewrite X in *. cbn [type_name module_path] in *. constructor; [apply external_none, X|exact F|exact N].
Qed.
Lemma width_right bits : (bits <= 64)%nat -> stored_width bits (round_up_integer_size bits).
Proof.
  intro H. unfold stored_width, round_up_integer_size. destruct (Nat.leb_spec bits 8); [|destruct (Nat.leb_spec bits 16); [|destruct (Nat.leb_spec bits 32)] ]; (split; [cbn [In]; tauto|]); (split; [lia|]); intros w' I B; cbn [In] in I; lia.
Qed.
(** what the parser ensures *)
Definition scalar_width (s : rscalar cmessage) : Prop := match s with RPrimitive p => (prim_bits p <= 64)%nat | _ => True end.
Lemma scalar_rust_right s e : is_map e -> scalar_width s -> (forall k m, s = RComposite k m -> proper k) -> scalar_in_rust e s (scalar_to_rust s e).
Proof.
  intros M W P. destruct s as [k m|p|bits]; cbn [scalar_to_rust]; [constructor; apply referenced_right; [exact M|apply (P k m eq_refl)]| |constructor]. destruct p; constructor; apply width_right; exact W.
Qed.
Lemma type_rust_right t e : is_map e -> scalar_width (ftype_scalar t) -> (forall k m, ftype_scalar t = RComposite k m -> proper k) -> type_in_rust e t (to_rust t e).
Proof.
  intros M W P. pose proof (scalar_rust_right (ftype_scalar t) e M W P) as S. destruct t as [s|s n|s n]; cbn [ftype_scalar to_rust] in *; [constructor; exact S| |]; (destruct s as [k m|p|b]; [constructor; [discriminate|exact S]| |constructor; [discriminate|exact S] ]; destruct p; constructor; try discriminate; try exact S; lia).
Qed.
Definition members_fit (m : cmessage) : Prop := forall t name, In (MemberData t name) (members (c_kind m)) -> scalar_width (ftype_scalar t) /\ forall k inner, ftype_scalar t = RComposite k inner -> proper k.
Lemma union_right e (ms : list (ftype cmessage * text)) : is_map e -> (forall t name, In (t, name) ms -> scalar_width (ftype_scalar t) /\ forall k inner, ftype_scalar t = RComposite k inner -> proper k) ->
  forall i l, make_variants e i ms = Done l -> union_variants e i (map (fun v => MemberData (fst v) (snd v)) ms) l.
Proof.
  intro M. induction ms as [|[t name] ms IH]; intros F i l H; cbn [make_variants] in H; [injection H as <-; constructor|]. destruct (i <? 2 ^ 32); [|discriminate H]. destruct (make_variants e (i + 1) ms) as [l'| |] eqn:E; cbn [obind] in H; try discriminate H. injection H as <-.
  cbn [map fst snd]. constructor; [apply make_part| |apply IH; [|exact E]; intros t' n' I; apply (F t' n'); right; exact I]. destruct (F t name (or_introl eq_refl)) as (W & P). apply (type_rust_right t e M W P).
Qed.
Lemma shaped_right k m n r t e g : is_map e -> members_fit m -> ~ marked_enum t -> generate_rust_type k m n r t e = Done g -> shaped_as e m g /\ g_constants g = c_constants m.
Proof.
  intros M F N H. unfold shaped_as, generate_rust_type, members_fit in *. destruct (has_enum_directive t) eqn:D; [exfalso; apply N, marked_right, D|]. destruct (c_kind m) as [fs|b vs] eqn:K.
  - injection H as <-. cbn [g_kind g_constants]. split; [|reflexivity]. split; [exact (fun x => x)|]. cbn [members]. assert (G : forall t0 name al, In (FData t0 name al) fs -> scalar_width (ftype_scalar t0) /\ forall k inner, ftype_scalar t0 = RComposite k inner -> proper k).
    { intros t0 name al I. apply (F t0 name). cbn [members]. change (MemberData t0 name) with (member_of_field (FData t0 name al)). apply in_map, I. }
    clear - M G. induction fs as [|f fs IH]; cbn [map]; constructor; [|apply IH; intros t0 name al I; apply (G t0 name al); right; exact I]. destruct f as [bits al|t0 name al]; cbn [member_of_field make_field]; constructor; [apply make_part|]. destruct (G t0 name al (or_introl eq_refl)) as (W & P). apply (type_rust_right t0 e M W P).
  - destruct (make_variants e 0 vs) as [l| |] eqn:E; cbn [obind] in H; try discriminate H. injection H as <-. cbn [g_kind g_constants]. split; [|reflexivity]. split; [exact I|]. split; [|intros b0 l0 X; injection X as -> _; reflexivity]. cbn [members]. apply union_right; [exact M| |exact E]. intros t0 name I. apply (F t0 name). cbn [members]. change (MemberData t0 name) with ((fun v : ftype cmessage * text => MemberData (fst v) (snd v)) (t0, name)). apply in_map, I.
Qed.

(** * Types of one module *)
Lemma types_filter f l : types (filter f l) = filter (fun g => f (IType g)) (types l).
Proof. induction l as [|i l IH]; [reflexivity|]. cbn [filter]. destruct i as [g|n k v d]; cbn [types flat_map app filter]; fold (types l); [|destruct (f _); exact IH]. destruct (f (IType g)) eqn:E; cbn [types flat_map app]; [|exact IH]. fold (types (filter f l)). rewrite IH. reflexivity. Qed.
Lemma NoDup_filter_map {A B} (h : A -> B) f (l : list A) : NoDup (map h l) -> NoDup (map h (filter f l)).
Proof.
  induction l as [|a l IH]; intro D; [constructor|]. inversion D as [|x y D1 D2]; subst. cbn [filter]. destruct (f a); [|apply IH, D2]. cbn [map]. constructor; [|apply IH, D2]. intro I. apply D1. apply in_map_iff in I as (b & E & I). apply filter_In in I as (I & _). rewrite <- E. apply in_map, I.
Qed.
Lemma module_names p l : NoDup (map (fun g => full_name (g_name g)) (types l)) -> NoDup (map (fun g => type_name (g_name g)) (types (items_at p (tree_of l)))).
Proof.
  intro D. rewrite items_at_tree, types_filter. apply (NoDup_filter_map _ (fun g => path_eqb (module_path (item_name (IType g))) p)) in D. cbn [item_name] in *.
  assert (F : Forall (fun g => module_path (g_name g) = p) (filter (fun g => path_eqb (module_path (g_name g)) p) (types l))). { apply Forall_forall. intros g I. apply filter_In in I as (_ & I). apply path_eqb_eq, I. }
  revert F D. generalize (filter (fun g => path_eqb (module_path (g_name g)) p) (types l)). intros gs F D. induction gs as [|g gs IH]; [constructor|]. inversion D as [|x y D1 D2]; subst. pose proof (Forall_inv F) as G. apply Forall_inv_tail in F. cbn [map]. constructor; [|apply (IH F D2)].
  intro I. apply D1. apply in_map_iff in I as (g' & E & I). apply in_map_iff. exists g'. split; [|exact I]. rewrite Forall_forall in F. unfold full_name. rewrite (F g' I), G, E. reflexivity.
Qed.
(** * Names of fields and variants *)
Lemma map_injective_in {A B} (h : A -> B) (l : list A) : (forall a b, In a l -> In b l -> h a = h b -> a = b) -> NoDup l -> NoDup (map h l).
Proof.
  induction l as [|a l IH]; intros H D; [constructor|]. inversion D as [|x y D1 D2]; subst. cbn [map]. constructor; [|apply IH; [intros b c I J; apply H; right; assumption|exact D2] ]. intro I. apply in_map_iff in I as (b & E & I). apply D1. rewrite (H a b (or_introl eq_refl) (or_intror I) (eq_sym E)). exact I.
Qed.
Lemma uniform_camel names : uniform names -> NoDup names -> NoDup (map (fun n => camel (make_rust_identifier n)) names).
Proof.
  intros U D. apply map_injective_in; [|exact D]. intros a b I J E. destruct U as [U|U]; rewrite Forall_forall in U; pose proof (U a I) as A; pose proof (U b J) as B.
  - rewrite !conventional_make in E by (left; assumption). apply (camel_lowercase a b A B E).
  - rewrite !conventional_make in E by (right; assumption). apply (camel_uppercase a b A B E).
Qed.
Lemma uniform_make names : uniform names -> map make_rust_identifier names = names.
Proof. intro U. rewrite <- (map_id names) at 2. apply map_ext_in. intros a I. apply conventional_make. destruct U as [U|U]; rewrite Forall_forall in U; [left|right]; apply U, I. Qed.
Lemma constant_variant_names e cs : forall vs, constant_variants e cs = Done vs -> map v_name vs = map (fun n => camel (make_rust_identifier n)) (map fst cs).
Proof.
  induction cs as [|[name c] cs IH]; intros vs H; cbn [constant_variants] in H; [injection H as <-; reflexivity|]. destruct (constant_val c); try discriminate H. destruct ((0 <=? z)%Z && (z <? 2 ^ 32)%Z); [|discriminate H]. destruct (constant_variants e cs) as [l| |] eqn:E; cbn [obind] in H; try discriminate H. injection H as <-. cbn [map v_name make_variant fst]. f_equal. apply IH. reflexivity.
Qed.
Lemma union_variant_names e ms : forall i vs, make_variants e i ms = Done vs -> map v_name vs = map (fun n => camel (make_rust_identifier n)) (map snd ms).
Proof.
  induction ms as [|[t name] ms IH]; intros i vs H; cbn [make_variants] in H; [injection H as <-; reflexivity|]. destruct (i <? 2 ^ 32); [|discriminate H]. destruct (make_variants e (i + 1) ms) as [l| |] eqn:E; cbn [obind] in H; try discriminate H. injection H as <-. cbn [map v_name make_variant snd]. f_equal. apply (IH (i + 1)). exact E.
Qed.
Lemma field_names e fs : flat_map (fun f => match f with GData n _ _ _ => [n] | GPadding _ => [] end) (map (make_field e) fs) = map make_rust_identifier (member_names (map member_of_field fs)).
Proof. induction fs as [|f fs IH]; [reflexivity|]. destruct f as [bits al|t name al]; cbn [map make_field flat_map member_of_field member_names app]; [exact IH|]. f_equal. exact IH. Qed.
Lemma union_member_names (ms : list (ftype cmessage * text)) : member_names (map (fun v => MemberData (fst v) (snd v)) ms) = map snd ms.
Proof. induction ms as [|[t name] ms IH]; [reflexivity|]. cbn [map fst snd member_names flat_map app]. f_equal. exact IH. Qed.
(** the names in a generated type come from members, or from constants *)
Lemma inner_from k m n r t e g : generate_rust_type k m n r t e = Done g ->
  match g_kind g with
  | GStruct _ => ~ is_union (c_kind m) /\ inner_names g = map make_rust_identifier (member_names (members (c_kind m)))
  | GEnum _ _ => exists names, (names = member_names (members (c_kind m)) \/ (names = map fst (c_constants m) /\ marked_enum t)) /\ inner_names g = map (fun n => camel (make_rust_identifier n)) names
  end.
Proof.
  unfold generate_rust_type, inner_names. destruct (c_kind m) as [fs|b vs] eqn:K; destruct (has_enum_directive t) eqn:D.
  - intro H. pose proof H as H'. apply enum_from_struct_done in H' as (bits & name & al & l & -> & C & V & G). rewrite G. exists (map fst (c_constants m)). split; [right; split; [reflexivity|apply marked_right, D]|]. apply (constant_variant_names e _ _ V).
  - intro H. injection H as <-. cbn [g_kind]. split; [exact (fun x => x)|]. apply field_names.
  - discriminate.
  - destruct (make_variants e 0 vs) as [l| |] eqn:V; cbn [obind]; try discriminate. intro H. injection H as <-. cbn [g_kind]. exists (map snd vs). split; [left; cbn [members]; rewrite union_member_names; reflexivity|]. apply (union_variant_names e _ _ _ V).
Qed.
Lemma inner_distinct k m n r t e g : generate_rust_type k m n r t e = Done g -> uniform (member_names (members (c_kind m))) -> uniform (map fst (c_constants m)) -> NoDup (member_names (members (c_kind m))) -> NoDup (map fst (c_constants m)) -> NoDup (inner_names g).
Proof.
  intros H U1 U2 D1 D2. apply inner_from in H. destruct (g_kind g) as [fs|bits vs].
  - destruct H as (_ & ->). rewrite uniform_make by exact U1. exact D1.
  - destruct H as (names & [->|(-> & _)] & ->); apply uniform_camel; assumption.
Qed.
(** * Identifiers *)
Lemma camel_identifier s : conventional s -> exists c r, camel s = c :: r /\ 65 <= c <= 90 /\ Forall (fun c => is_letter c \/ is_digit c \/ c = 95) r.
Proof.
  intro C. assert (W : Forall (fun w => exists c r, capitalize w = c :: r /\ 65 <= c <= 90 /\ Forall (fun c => is_letter c \/ is_digit c \/ c = 95) r) (words s) /\ words s <> []).
  { destruct C as [C|C].
    - destruct (lowercase_words s C) as (F & N & _). split; [|exact N]. eapply Forall_impl; [|exact F]. intros w (c & r & -> & L & R). exists (c - 32), (lowercase r). cbn [capitalize]. split; [f_equal; unfold upper_char; chars|]. split; [lia|]. unfold lowercase. apply Forall_map. eapply Forall_impl; [|exact R]. intros x X. unfold lower_char, is_letter, is_digit. chars.
    - destruct (uppercase_words s C) as (F & N & _). split; [|exact N]. eapply Forall_impl; [|exact F]. intros w (c & r & -> & L & R). exists c, (lowercase r). cbn [capitalize]. split; [f_equal; unfold upper_char; chars|]. split; [lia|]. unfold lowercase. apply Forall_map. eapply Forall_impl; [|exact R]. intros x X. unfold lower_char, is_letter, is_digit. chars. }
  unfold camel. destruct W as (W & N). destruct (words s) as [|w ws]; [contradiction|]. pose proof (Forall_inv W) as (c & r & E & L & R). apply Forall_inv_tail in W. exists c, (r ++ flat_map capitalize ws). cbn [flat_map]. rewrite E. split; [reflexivity|]. split; [exact L|]. apply Forall_app. split; [exact R|].
  clear - W. induction ws as [|w ws IH]; [constructor|]. pose proof (Forall_inv W) as (c & r & E & L & R). apply Forall_inv_tail in W. cbn [flat_map]. rewrite E. cbn [app]. constructor; [left; left; exact L|]. apply Forall_app. split; [exact R|apply IH, W].
Qed.
Lemma upper_keyword c r : 65 <= c <= 90 -> In (c :: r) rust_keywords -> c :: r = name_of "Self".
Proof.
  intros U I. unfold rust_keywords in I. cbn [map In] in I. repeat (destruct I as [I|I]; [solve [exact (eq_sym I)|exfalso; apply (f_equal (fun l => nth 0 l 0)) in I; cbn [nth] in I; rewrite <- I in U; vm_compute in U; destruct U as (A & B); first [apply A; reflexivity|apply B; reflexivity] ]|]). destruct I.
Qed.
Lemma variant_identifier s : conventional s -> camel s <> name_of "Self" -> rust_identifier (camel s).
Proof.
  intros C N. destruct (camel_identifier s C) as (c & r & E & L & R). rewrite E in *. split; [exists c, r; split; [reflexivity|]; split; [left; left; exact L|exact R]|]. split; [intro X; injection X as -> _; lia|]. intro I. apply N, upper_keyword; assumption.
Qed.
Definition identb (s : text) : bool := match s with c :: r => (upper c || lower c || (c =? 95)) && forallb (fun c => alphanumeric c || (c =? 95)) r | [] => false end.
Lemma identb_right s : identb s = true -> identifier s.
Proof.
  destruct s as [|c r]; cbn [identb]; [discriminate|]. rewrite andb_true_iff, forallb_forall. intros (A & B). exists c, r. split; [reflexivity|]. split; [unfold is_letter; chars|]. apply Forall_forall. intros x I. specialize (B x I). unfold is_letter, is_digit. chars.
Qed.
(** * Errors *)
Lemma variants_no_error e ms : forall i, make_variants e i ms <> Fail.
Proof. induction ms as [|[t name] ms IH]; intro i; cbn [make_variants]; [discriminate|]. destruct (i <? 2 ^ 32); [|discriminate]. specialize (IH (i + 1)). destruct (make_variants e (i + 1) ms); cbn [obind]; congruence. Qed.
Lemma type_error k m n r t e : generate_rust_type k m n r t e = Fail -> marked_enum t.
Proof.
  intro H. apply marked_right. destruct (has_enum_directive t) eqn:D; [reflexivity|]. exfalso. unfold generate_rust_type in H. rewrite D in H. destruct (c_kind m) as [fs|b vs]; [discriminate H|]. pose proof (variants_no_error e vs 0) as V. destruct (make_variants e 0 vs); cbn [obind] in H; congruence.
Qed.
Lemma from_dsdl_error comments k c e : generate_from_dsdl comments k c e = Fail -> exists r m n, declared_in c r m /\ generate_rust_type k m n r (comments k r) e = Fail.
Proof.
  unfold generate_from_dsdl, declared_in. destruct (compiled_kind c) as [m|a b].
  - destruct (generate_rust_type k m _ _ _ e) eqn:G; cbn [obind]; try discriminate. intros _. exists RoleMessage, m. eexists. split; [reflexivity|exact G].
  - unfold for_service_type. destruct (generate_rust_type k a _ _ _ e) eqn:G; cbn [obind]; try discriminate.
    + destruct (generate_rust_type k b _ _ _ e) eqn:G'; cbn [obind]; try discriminate. intros _. exists RoleResponse, b. eexists. split; [reflexivity|exact G'].
    + intros _. exists RoleRequest, a. eexists. split; [reflexivity|exact G].
Qed.
Lemma items_error comments e pk : generate_items comments e pk = Fail -> exists k c, In (k, c) pk /\ external_module (key_path k) e = None /\ generate_from_dsdl comments k c e = Fail.
Proof.
  induction pk as [|[k c] pk IH]; cbn [generate_items]; [discriminate|]. intro H. assert (R : generate_items comments e pk = Fail -> exists k' c', In (k', c') ((k, c) :: pk) /\ external_module (key_path k') e = None /\ generate_from_dsdl comments k' c' e = Fail).
  { intro X. destruct (IH X) as (k' & c' & A & B). exists k', c'. split; [right; exact A|exact B]. }
  destruct (external_module (key_path k) e) eqn:X; [apply R, H|]. destruct (generate_from_dsdl comments k c e) eqn:G; cbn [obind] in H; try discriminate H; [|exists k, c; split; [left; reflexivity|split; assumption] ]. apply R. destruct (generate_items comments e pk); cbn [obind] in H; try discriminate H. reflexivity.
Qed.
(** * Discriminants *)
Lemma variants_values cs vs : Forall2 variant_for cs vs -> values_of cs = map (fun v => CInt (Z.of_N (v_discriminant v))) vs.
Proof. intro F. induction F as [|c v cs vs (A & _) _ IH]; [reflexivity|]. cbn [values_of map]. rewrite A. f_equal. exact IH. Qed.
Lemma variants_distinct cs vs : Forall2 variant_for cs vs -> NoDup (values_of cs) -> NoDup (map v_discriminant vs).
Proof. intros F D. rewrite (variants_values cs vs F) in D. apply (NoDup_map_inv (fun n => CInt (Z.of_N n))). rewrite map_map. exact D. Qed.
Lemma Forall2_nth_error {A B} (R : A -> B -> Prop) a b : Forall2 R a b -> forall i x, nth_error a i = Some x -> exists y, nth_error b i = Some y /\ R x y.
Proof. intro F. induction F as [|x y a b H F IH]; intros i z E; [destruct i; discriminate E|]. destruct i as [|i]; cbn [nth_error] in *; [injection E as <-; exists y; auto|apply IH, E]. Qed.
(** * Checking examples *)
Definition small_b (m : cmessage) : bool :=
  bls_okb (c_length m) && forallb (fun x => match x with MemberData t _ => bls_okb (ftype_size t) | MemberPadding _ => true end) (members (c_kind m)) && (match c_extent m with Sealed => true | Delimited b => b / 8 <? 2 ^ 32 end) && (N.of_nat (length (members (c_kind m))) <=? 2 ^ 32).
Lemma small_b_right m : small_b m = true -> small_enough m.
Proof.
  unfold small_b. rewrite !andb_true_iff, forallb_forall, N.leb_le. intros ( ( (A & B) & C) & D). constructor; [apply bls_okb_right, A| | |intros _; exact D].
  - intros t name I. specialize (B _ I). cbn beta iota in B. apply bls_okb_right, B.
  - intros bits E. rewrite E in C. apply N.ltb_lt, C.
Qed.
