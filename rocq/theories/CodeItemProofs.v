(** Proofs about the generator of Rust code: modules, references, ports, variants and identifiers. *)
From Coq Require Import String Lia Permutation.
From Verif Require Import Base EncModel EncSpec BlsModel BlsSpec GenModel GenSpec ExprModel ExprProofs PkgModel PkgSpec PkgProofs CompModel CompSpec CodeModel CodeSpec CodeProofs.
Open Scope list_scope.
Open Scope N_scope.
Ltac Zify.zify_post_hook ::= Z.div_mod_to_equations.

Lemma Forall2_in_r {A B} (R : A -> B -> Prop) a b : Forall2 R a b -> forall y, In y b -> exists x, In x a /\ R x y.
Proof. induction 1 as [|x y a b H F IH]; [intros ? []|]. intros z [<-|I]; [exists x; split; [left; reflexivity|exact H]|]. destruct (IH z I) as (w & J & K). exists w. split; [right; exact J|exact K]. Qed.

(** * Modules *)

Lemma text_eqb_refl s : text_eqb s s = true.
Proof. apply text_eqb_eq. reflexivity. Qed.
Lemma text_eqb_neq a b : a <> b -> text_eqb a b = false.
Proof. intro N. destruct (text_eqb a b) eqn:E; [apply text_eqb_eq in E; contradiction|reflexivity]. Qed.
Lemma path_eqb_neq a b : a <> b -> path_eqb a b = false.
Proof. intro N. destruct (path_eqb a b) eqn:E; [apply path_eqb_eq in E; contradiction|reflexivity]. Qed.
Lemma items_at_empty p : items_at p empty_tree = [].
Proof. destruct p; reflexivity. Qed.
Lemma in_child_same f g n l : f empty_tree = [] -> in_child f n (update_child g n l) = match find (fun c => text_eqb (fst c) n) l with Some c => f (g (snd c)) | None => f (g empty_tree) end.
Proof.
  intro E. induction l as [|[n' t] l IH]; cbn [update_child in_child find fst].
  - cbn [in_child]. rewrite text_eqb_refl. reflexivity.
  - destruct (text_eqb n' n) eqn:X; cbn [in_child]; rewrite X; [reflexivity|exact IH].
Qed.
Lemma in_child_find f n l : in_child f n l = match find (fun c => text_eqb (fst c) n) l with Some c => f (snd c) | None => [] end.
Proof. induction l as [|[n' t] l IH]; [reflexivity|]. cbn [in_child find fst]. destruct (text_eqb n' n); [reflexivity|exact IH]. Qed.
Lemma in_child_other f g n n' l : n <> n' -> in_child f n (update_child g n' l) = in_child f n l.
Proof.
  intro N. induction l as [|[m t] l IH]; cbn [update_child in_child].
  - rewrite text_eqb_neq by congruence. reflexivity.
  - destruct (text_eqb m n') eqn:X; cbn [in_child]; [|destruct (text_eqb m n); [reflexivity|exact IH] ]. apply text_eqb_eq in X. subst m. rewrite text_eqb_neq by congruence. reflexivity.
Qed.
Lemma items_at_add i : forall q p t, items_at p (add_item i q t) = items_at p t ++ (if path_eqb q p then [i] else []).
Proof.
  induction q as [|n q IH]; intros p [items children]; cbn [add_item].
  - destruct p as [|m p]; cbn [items_at path_eqb]; [reflexivity|rewrite app_nil_r; reflexivity].
  - destruct p as [|m p]; cbn [items_at path_eqb]; [rewrite app_nil_r; reflexivity|]. destruct (text_eqb n m) eqn:X; cbn [andb].
    + apply text_eqb_eq in X. subst m. rewrite in_child_same by apply items_at_empty. rewrite in_child_find. destruct (find _ children) as [ [m t] |]; [apply IH|]. rewrite IH, items_at_empty. reflexivity.
    + rewrite in_child_other, app_nil_r; [reflexivity|]. intros ->. rewrite text_eqb_refl in X. discriminate X.
Qed.
Lemma items_at_tree l p : items_at p (tree_of l) = filter (fun i => path_eqb (module_path (item_name i)) p) l.
Proof.
  unfold tree_of. assert (G : forall t, items_at p (fold_left (fun t i => add_item i (module_path (item_name i)) t) l t) = items_at p t ++ filter (fun i => path_eqb (module_path (item_name i)) p) l).
  { induction l as [|i l IH]; intro t; cbn [fold_left filter]; [rewrite app_nil_r; reflexivity|]. rewrite IH, items_at_add, <- app_assoc. destruct (path_eqb _ p); reflexivity. }
  rewrite G, items_at_empty. reflexivity.
Qed.
Lemma update_names g n l : map fst (update_child g n l) = if existsb (fun c => text_eqb (fst c) n) l then map fst l else map fst l ++ [n].
Proof.
  induction l as [|[m t] l IH]; [reflexivity|]. cbn [update_child existsb fst]. destruct (text_eqb m n); cbn [orb map fst]; [reflexivity|]. rewrite IH. destruct (existsb _ l); reflexivity.
Qed.
Lemma update_forall (P : tree -> Prop) g n l : P (g empty_tree) -> (forall t, P t -> P (g t)) -> Forall (fun c => P (snd c)) l -> Forall (fun c => P (snd c)) (update_child g n l).
Proof.
  intros E G F. induction F as [|[m t] l H F IH]; cbn [update_child]; [constructor; [exact E|constructor]|]. destruct (text_eqb m n); constructor; cbn [snd] in *; auto.
Qed.
Lemma add_well_named i : forall q t, well_named t -> well_named (add_item i q t).
Proof.
  induction q as [|n q IH]; intros t [items children N F]; cbn [add_item]; constructor; try assumption.
  - rewrite update_names. destruct (existsb (fun c => text_eqb (fst c) n) children) eqn:X; [exact N|]. apply nodup_app; [exact N|constructor; [intros []|constructor]|]. intros x I [<-|[] ]. apply in_map_iff in I as ([m t'] & E & I). cbn [fst] in E. subst m.
    assert (Y : existsb (fun c => text_eqb (fst c) n) children = true) by (apply existsb_exists; exists (n, t'); split; [exact I|apply text_eqb_refl]). congruence.
  - apply update_forall; [|exact IH|exact F]. apply IH. constructor; constructor.
Qed.
Lemma tree_well_named l : well_named (tree_of l).
Proof.
  unfold tree_of. assert (G : forall t, well_named t -> well_named (fold_left (fun t i => add_item i (module_path (item_name i)) t) l t)) by (induction l as [|i l IH]; intros t H; [exact H|cbn [fold_left]; apply IH, add_well_named, H]).
  apply G. constructor; constructor.
Qed.

(** * Places *)

Lemma digits_denote s : Forall is_digit s -> s <> [] -> denotes_number s (digits_value s).
Proof.
  intros F N. unfold digits_value. induction s as [|c s IH] using rev_ind; [contradiction|]. apply Forall_app in F as (F1 & F2). inversion F2; subst. rewrite fold_left_app. cbn [fold_left]. destruct s as [|d s].
  - cbn [fold_left app]. replace (0 * 10 + (c - 48)) with (c - 48) by lia. constructor. assumption.
  - replace (fold_left (fun n c0 => n * 10 + (c0 - 48)) (d :: s) 0 * 10 + (c - 48)) with (10 * fold_left (fun n c0 => n * 10 + (c0 - 48)) (d :: s) 0 + (c - 48)) by lia. constructor; [apply IH; [exact F1|discriminate]|assumption].
Qed.
Lemma show_decimal n : n < 256 -> decimal (show_u8 n) n.
Proof.
  intro L. split.
  - destruct (show_digits n ltac:(lia)) as (F & N). pose proof (digits_denote _ F N) as D. replace (digits_value (show_u8 n)) with n in D; [exact D|]. clear. unfold show_u8, digits_value. destruct (N.leb_spec 100 n), (N.leb_spec 10 n); cbn [app fold_left]; lia.
  - unfold show_u8. destruct (N.leb_spec 100 n); [right; exists (48 + n / 100); eexists; split; [reflexivity|lia]|]. destruct (N.leb_spec 10 n); [right; exists (48 + n / 10 mod 10); eexists; split; [reflexivity|lia]|].
    cbn [app]. destruct (N.eq_dec n 0) as [->|]; [left; reflexivity|right]. exists (48 + n mod 10), []. split; [reflexivity|lia].
Qed.
Lemma version_part_right k : proper k -> version_part k (version_module k).
Proof. intros P. exists (show_u8 (key_major k)), (show_u8 (key_minor k)). split; [reflexivity|]. split; apply show_decimal, P. Qed.
Lemma parts_right p : Forall2 rust_part p (map make_rust_identifier p).
Proof. induction p; constructor; [apply make_part|assumption]. Qed.
Lemma module_for_right k e : proper k -> external_module (key_path k) e = None -> module_for k (module_path (for_message_type k e)).
Proof. intros P X. rewrite (internal_name k e X). eexists. eexists. split; [reflexivity|]. split; [apply parts_right|apply version_part_right, P]. Qed.
Lemma type_module k r e : module_path (type_rust_name k r e) = module_path (for_message_type k e).
Proof. destruct r; reflexivity. Qed.
Lemma named_for_right k r e : named_for k r (type_name (type_rust_name k r e)).
Proof.
  exists (make_rust_identifier (key_name k)). split; [apply make_part|]. unfold type_rust_name, for_message_type. destruct (external_module (key_path k) e); destruct r; cbn [with_suffix type_name suffix]; [rewrite app_nil_r| | |rewrite app_nil_r| |]; reflexivity.
Qed.

(** * References *)

Lemma make_variants_in e : forall vs i l, make_variants e i vs = Done l -> forall v, In v l -> exists t name, In (t, name) vs /\ v_type v = Some (to_rust t e, t) /\ v_name v = camel (make_rust_identifier name).
Proof.
  induction vs as [|[t name] vs IH]; intros i l H v I; cbn [make_variants] in H; [injection H as <-; destruct I|]. destruct (i <? 2 ^ 32); [|discriminate H]. destruct (make_variants e (i + 1) vs) as [l'| |] eqn:E; cbn [obind] in H; try discriminate H. injection H as <-. destruct I as [<-|I].
  - exists t, name. split; [left; reflexivity|]. split; reflexivity.
  - destruct (IH _ _ E v I) as (t' & name' & A & B). exists t', name'. split; [right; exact A|exact B].
Qed.
Lemma constant_variants_in e : forall cs l, constant_variants e cs = Done l -> Forall2 variant_for cs l.
Proof.
  induction cs as [|[name c] cs IH]; intros l H; cbn [constant_variants] in H; [injection H as <-; constructor|]. destruct (constant_val c) as [|z|] eqn:V; try discriminate H. destruct ((0 <=? z)%Z && (z <? 2 ^ 32)%Z) eqn:B; [|discriminate H]. destruct (constant_variants e cs) as [l'| |] eqn:E; cbn [obind] in H; try discriminate H. injection H as <-.
  constructor; [|apply IH; reflexivity]. split; [|split]; cbn [v_type make_variant option_map fst snd v_discriminant v_name]; [rewrite V; f_equal; apply andb_true_iff in B; lia|reflexivity|]. exists (make_rust_identifier name). split; [apply make_part|reflexivity].
Qed.
Lemma to_rust_mentions t e n : mentions (to_rust t e) n -> exists k m, ftype_scalar t = RComposite k m /\ n = for_message_type k e.
Proof.
  assert (S : forall s, mentions (scalar_to_rust s e) n -> exists k m, s = RComposite k m /\ n = for_message_type k e).
  { intros s H. destruct s as [k m|p|b]; cbn [scalar_to_rust] in H; [inversion H; subst; exists k, m; auto|destruct p; inversion H|inversion H]. }
  destruct t as [s|s len|s len]; cbn [to_rust ftype_scalar]; intro H.
  - apply S, H.
  - apply S. destruct s as [k m|p|b]; [inversion H; assumption| |inversion H; assumption]. destruct p; inversion H; assumption.
  - apply S. destruct s as [k m|p|b]; [inversion H; assumption| |inversion H; assumption]. destruct p; inversion H; assumption.
Qed.
Lemma enum_from_struct_done k n r m fs e g : enum_from_struct k n r m fs e = Done g -> exists bits name aligned vs, fs = [FData (FScalar (RPrimitive (PUInt bits))) name aligned] /\ check_constants bits [] (c_constants m) = Done tt /\ constant_variants e (c_constants m) = Done vs /\ g_kind g = GEnum (N.of_nat bits) vs.
Proof.
  unfold enum_from_struct. destruct fs as [|f [|f' fs] ]; try discriminate; destruct f as [? ?|ty name al]; try discriminate; destruct ty as [s|s ?|s ?]; try discriminate; destruct s as [? ?|p|?]; try discriminate; destruct p as [| | | |bits| | |]; try discriminate.
  destruct (check_constants _ _ _) as [ [] | |] eqn:C; cbn [obind]; try discriminate. destruct (constant_variants _ _) as [vs| |] eqn:V; cbn [obind]; try discriminate. intro H. injection H as <-. exists bits, name, al, vs. auto.
Qed.
Lemma refers_from k m n r t e g x : generate_rust_type k m n r t e = Done g -> refers_to g x -> exists k' inner, refers (c_kind m) k' inner /\ x = for_message_type k' e.
Proof.
  unfold generate_rust_type. intros H (rust & P & M). destruct (c_kind m) as [fs|b vs] eqn:K; destruct (has_enum_directive t) eqn:D; [| | discriminate H|].
  - apply enum_from_struct_done in H as (bits & name & al & vs & -> & _ & V & G). destruct P as [fs' ? ? ? ? E|bits' vs' v rust ty E I T]; rewrite G in E; [discriminate E|]. injection E as <- <-. apply constant_variants_in in V. destruct (Forall2_in_r _ _ _ V v I) as (c & _ & _ & X & _). congruence.
  - injection H as <-. destruct P as [fs' name rust ty al E I|bits' vs' v rust ty E I T]; cbn [g_kind] in E; [|discriminate E]. injection E as <-. apply in_map_iff in I as (f & E & I). destruct f as [? ?|t' name' al']; cbn [make_field] in E; [discriminate E|]. injection E as <- <- <- <-.
    apply to_rust_mentions in M as (k' & inner & S & ->). exists k', inner. split; [|reflexivity]. exists t', name'. split; [|exact S]. cbn [members]. apply in_map_iff. exists (FData t' name' al'). auto.
  - destruct (make_variants e 0 vs) as [l| |] eqn:V; cbn [obind] in H; try discriminate H. injection H as <-. destruct P as [fs' ? ? ? ? E|bits' vs' v rust ty E I T]; cbn [g_kind] in E; [discriminate E|]. injection E as <- <-. destruct (make_variants_in e vs 0 l V v I) as (t' & name & J & X & _). rewrite X in T. injection T as <- <-.
    apply to_rust_mentions in M as (k' & inner & S & ->). exists k', inner. split; [|reflexivity]. exists t', name. split; [|exact S]. cbn [members]. apply in_map_iff. exists (t', name). auto.
Qed.
