(** Proofs about the compiler of DSDL files: what a file is compiled to. *)
From Coq Require Import QArith Qcanon Lia ZifyBool ZifyN ZifyNat Permutation.
From Verif Require Import Base BlsModel BlsSpec BlsProofs GenModel ExprModel ExprSpec ExprProofs PkgModel PkgSpec PkgProofs CompModel CompSpec CompProofs.
Open Scope list_scope.
Open Scope N_scope.
Ltac Zify.zify_post_hook ::= Z.div_mod_to_equations.

(** * Lengths of members *)

Definition sized (m : cmessage) : Prop := c_length m = bit_length (erase m).
Definition type_sized (t : ftype cmessage) : Prop := match ftype_scalar t with RComposite _ m => sized m | _ => True end.
Lemma erase_delimited m : delimited (erase m) = match c_extent m with Sealed => false | Delimited _ => true end.
Proof. destruct m as [d e k l cs]. reflexivity. Qed.
Lemma erase_scalar_size s : (match s with RComposite _ m => sized m | _ => True end) -> scalar_size bit_length (erase_scalar erase s) = rscalar_size s.
Proof. destruct s as [k m|p|bits]; cbn [erase_scalar scalar_size rscalar_size prim_bits]; intro H; [symmetry; exact H|reflexivity|rewrite N2Nat.id; reflexivity]. Qed.
Lemma erase_type_size t : type_sized t -> type_size bit_length (erase_type erase t) = ftype_size t.
Proof. unfold type_sized. destruct t as [s|s n|s n]; cbn [ftype_scalar erase_type type_size ftype_size]; intro H; rewrite (erase_scalar_size s H); reflexivity. Qed.
Lemma erase_alignment t : type_alignment (erase_type erase t) = ftype_alignment t.
Proof. unfold type_alignment, ftype_alignment. destruct t as [s|s n|s n]; cbn [erase_type type_scalar ftype_scalar]; destruct s; reflexivity. Qed.
Lemma erase_implicit t : implicit_bits (erase_type erase t) = ftype_implicit t.
Proof.
  destruct t as [s|s n|s n]; [|destruct s; reflexivity|destruct s; reflexivity]. destruct s as [k m|p|bits]; try reflexivity. cbn [erase_type erase_scalar implicit_bits scalar_delimited ftype_implicit]. rewrite erase_delimited. destruct (c_extent m); reflexivity.
Qed.
Lemma erase_update t l : type_sized t -> update_length t l = add_member bit_length (Some l) (MData (erase_type erase t)).
Proof. intro H. unfold update_length, field_length. cbn [add_member]. unfold total_length. rewrite erase_alignment, erase_implicit, (erase_type_size t H). reflexivity. Qed.

Definition len_of (before : option operator) : operator := match before with None => bls_single 0 | Some l => l end.
Lemma struct_length_snoc bl fs f : forall o, struct_length bl o (fs ++ [f]) = add_member bl (match fs with [] => o | _ => Some (struct_length bl o fs) end) f.
Proof.
  induction fs as [|g fs IH]; intro o; [reflexivity|]. cbn [app struct_length]. change (struct_length bl (Some (add_member bl o g)) (fs ++ [f]) = add_member bl (Some (struct_length bl (Some (add_member bl o g)) fs)) f). rewrite IH. destruct fs; reflexivity.
Qed.
Lemma with_flags_snoc fs f : forall o, with_flags o (fs ++ [f]) = with_flags o fs ++ [(always_aligned (match fs with [] => o | _ => Some (struct_length bit_length o fs) end), f)].
Proof.
  induction fs as [|g fs IH]; intro o; [reflexivity|]. cbn [app with_flags]. f_equal. rewrite IH. f_equal. f_equal. f_equal. destruct fs; reflexivity.
Qed.
Definition erased (fs : list (field cmessage)) : list (member message) := map (erase_field erase) fs.
Definition struct_right (fs : list (field cmessage)) (l : operator) : Prop :=
  l = struct_length bit_length None (erased fs) /\ map flag fs = map fst (with_flags None (erased fs)).
Lemma struct_right_first f : flag f = true -> struct_right [f] (add_member bit_length None (erase_field erase f)).
Proof. intro H. split; [reflexivity|]. cbn [map erased with_flags fst always_aligned]. rewrite H. reflexivity. Qed.
Lemma struct_right_snoc fs l f : fs <> [] -> struct_right fs l -> bls_is_byte_aligned l = Ok (flag f) -> struct_right (fs ++ [f]) (add_member bit_length (Some l) (erase_field erase f)).
Proof.
  intros Hn (Hl & Hf) Ha. unfold struct_right, erased. rewrite !map_app. cbn [map]. rewrite struct_length_snoc, with_flags_snoc. fold (erased fs).
  assert (E : match erased fs with [] => None | _ => Some (struct_length bit_length None (erased fs)) end = Some l) by (destruct fs as [|g fs]; [destruct (Hn eq_refl)|]; cbn [erased map]; rewrite Hl; reflexivity).
  rewrite E. split; [reflexivity|]. rewrite map_app, Hf. cbn [map fst always_aligned]. rewrite Ha. reflexivity.
Qed.

(** * A section of a file *)

Definition body_members (b : body) : list cmember :=
  match b with BStart => [] | BStruct fs _ _ => map member_of_field fs | BUnion vs _ => map (fun v => MemberData (fst v) (snd v)) vs end.
Definition body_ending (b : body) : option extent :=
  match b with BStart => None | BStruct _ e _ => e | BUnion _ (UEnd e _) => Some e | BUnion _ _ => None end.
Definition body_union (b : body) : Prop := match b with BUnion _ _ => True | _ => False end.
Definition body_length (b : body) : Prop :=
  match b with
  | BStart => True
  | BStruct fs e l => struct_right fs l /\ (e = None -> fs <> [])
  | BUnion vs UCollecting => True
  | BUnion vs (UUsed l) | BUnion vs (UEnd _ l) => l = make_union_length vs
  end.
Definition not_hidden (deprecated : bool) (m : cmember) : Prop :=
  match m with MemberData t _ => match ftype_scalar t with RComposite _ i => c_deprecated i = true -> deprecated = true | _ => True end | _ => True end.

Lemma Forall2_len {A B} (P : A -> B -> Prop) l m : Forall2 P l m -> length l = length m.
Proof. induction 1; cbn [length]; congruence. Qed.
Section Sections.
Context (to_float : nat -> Qc -> option N) (results : list (key * compiled)).
Definition ending_right (sect : list statement) (e : option extent) : Prop :=
  match e with None => endings sect = [] | Some e => exists st, endings sect = [st] /\ ending_for st e end.
Record section_ok (sect : list statement) (f : file_state) : Prop := SectionOk {
  se_constants : Forall2 (constant_for to_float) (constant_statements sect) (fs_constants f);
  se_constant_names : NoDup (map fst (fs_constants f));
  se_members : Forall2 (member_for results (fs_path f)) (attributes sect) (body_members (fs_body f));
  se_union : body_union (fs_body f) <-> In union_directive sect;
  se_ending : ending_right sect (body_ending (fs_body f));
  se_names : NoDup (member_names (body_members (fs_body f)));
  se_hidden : Forall (not_hidden (fs_deprecated f)) (body_members (fs_body f));
  se_two : body_union (fs_body f) -> body_ending (fs_body f) <> None -> (2 <= length (body_members (fs_body f)))%nat;
  se_length : (forall k port m, In (k, Compiled port (KMessage m)) results -> sized m) -> body_length (fs_body f);
  se_ordered : ordered sect
}.

Lemma ordered_snoc sts st : ordered sts -> allowed sts st -> ordered (sts ++ [st]).
Proof.
  intros O A pre st' post E. destruct (exists_last (l := st' :: post)) as (l & x & El); [intro X; discriminate X|]. rewrite El, app_assoc in E. apply app_inj_tail in E. destruct E as (E1 & E2). subst x.
  destruct l as [|y l]; [injection El as -> _; rewrite app_nil_r in E1; subst pre; exact A|]. injection El as <- ->. apply (O pre st' l). exact E1.
Qed.
Lemma section_start path dep req : section_ok [] (FileState path [] dep req BStart).
Proof.
  constructor; cbn [fs_constants fs_body body_members body_ending body_union body_length map member_names flat_map attributes constant_statements filter].
  - constructor.
  - constructor.
  - constructor.
  - split; intros [].
  - reflexivity.
  - constructor.
  - constructor.
  - intros [].
  - intros _. exact Logic.I.
  - intros pre st post E. destruct pre; discriminate E.
Qed.
Lemma touched_body f g : touched f g -> body_members (fs_body g) = body_members (fs_body f) /\ body_ending (fs_body g) = body_ending (fs_body f) /\ (body_union (fs_body g) <-> body_union (fs_body f)) /\ (body_length (fs_body f) -> body_length (fs_body g)).
Proof. intros [->|(vs & E & ->)]; [tauto|]. cbn [set_body fs_body]. rewrite E. cbn [body_members body_ending body_union body_length]. tauto. Qed.
Lemma section_touched sect f g : touched f g -> section_ok sect f -> section_ok sect g.
Proof.
  intros T H. pose proof (touched_fields _ _ T) as (A & B & C & D). pose proof (touched_body _ _ T) as (E & F & G & I). destruct H. constructor; rewrite ?A, ?B, ?C, ?E, ?F; try assumption; try tauto.
Qed.

(** neutral statements *)
Definition neutral (st : statement) : Prop := ~ is_attribute st /\ ~ is_ending st /\ (forall t n e, st <> SConstant t n e) /\ (forall e, st <> SDirective DUnion e) /\ (forall e, st <> SDirective DDeprecated e) /\ (forall e, st <> SDirective DOther e).
Lemma attributes_snoc sts st : attributes (sts ++ [st]) = attributes sts ++ attributes [st].
Proof. apply filter_app. Qed.
Lemma endings_snoc sts st : endings (sts ++ [st]) = endings sts ++ endings [st].
Proof. apply filter_app. Qed.
Lemma constants_snoc sts st : constant_statements (sts ++ [st]) = constant_statements sts ++ constant_statements [st].
Proof. apply filter_app. Qed.
Lemma union_snoc sts st : st <> union_directive -> (In union_directive (sts ++ [st]) <-> In union_directive sts).
Proof. intro H. rewrite in_app_iff. cbn [In]. split; [intros [X|[X|[] ] ]; [exact X|congruence]|auto]. Qed.
Lemma section_neutral sect st f : neutral st -> section_ok sect f -> section_ok (sect ++ [st]) f.
Proof.
  intros (N1 & N2 & N3 & N4 & N5 & N6) H. assert (A : attributes [st] = []) by (destruct st; try reflexivity; destruct (N1 Logic.I)). assert (B : endings [st] = []) by (destruct st as [d e| | | |]; try reflexivity; destruct d; try reflexivity; destruct (N2 Logic.I)).
  assert (C : constant_statements [st] = []) by (destruct st as [d e|t n e| | |]; try reflexivity; destruct (N3 t n e eq_refl)). destruct H. constructor; unfold ending_right; rewrite ?attributes_snoc, ?endings_snoc, ?constants_snoc, ?A, ?B, ?C, ?app_nil_r; try assumption.
  - rewrite union_snoc; [assumption|]. intro X. apply (N4 None). exact X.
  - apply ordered_snoc; [assumption|]. constructor; try (intro X; contradiction); try (intros; subst st; exfalso; (apply N1; exact Logic.I) || (eapply N3; reflexivity) || (eapply N4; reflexivity) || (eapply N5; reflexivity)); try (intros e X; apply (N6 e X)).
Qed.

Lemma text_eqb_refl (a : text) : text_eqb a a = true.
Proof. apply text_eqb_eq. reflexivity. Qed.
Lemma ending_started sect b : ending_right sect (body_ending b) -> body_ending b = None -> endings sect = [].
Proof. intros H E. rewrite E in H. exact H. Qed.
(** no members yet *)
Lemma no_attributes sect f : section_ok sect f -> body_members (fs_body f) = [] -> attributes sect = [].
Proof. intros H E. pose proof (se_members _ _ H) as M. rewrite E in M. inversion M. reflexivity. Qed.

Lemma section_union sect f b : section_ok sect f -> handle_union (fs_body f) = Done b -> section_ok (sect ++ [SDirective DUnion None]) (set_body f b).
Proof.
  intros H E. destruct (fs_body f) eqn:Eb; cbn [handle_union] in E; try discriminate E. apply done_inj in E. subst b.
  assert (A0 : attributes sect = []) by (apply (no_attributes sect f H); rewrite Eb; reflexivity). assert (E0 : endings sect = []) by (apply (ending_started sect (fs_body f)); [apply H|rewrite Eb; reflexivity]). assert (U0 : ~ In union_directive sect) by (intro X; apply (se_union _ _ H) in X; rewrite Eb in X; exact X).
  constructor; cbn [set_body fs_constants fs_body fs_path fs_deprecated body_members body_ending body_union body_length]; unfold ending_right; rewrite ?attributes_snoc, ?endings_snoc, ?constants_snoc, ?A0, ?E0; cbn [attributes endings constant_statements filter app map member_names flat_map]; rewrite ?app_nil_r.
  - apply H.
  - apply H.
  - constructor.
  - split; [intros _; apply in_or_app; right; left; reflexivity|tauto].
  - reflexivity.
  - constructor.
  - constructor.
  - intros _ X. destruct (X eq_refl).
  - tauto.
  - apply ordered_snoc; [apply H|]. constructor.
    + intros [].
    + intros bits X. discriminate X.
    + intros e X. injection X as <-. auto.
    + intros e X. discriminate X.
    + intros [].
    + intros e X. discriminate X.
    + intros t name e X. discriminate X.
Qed.
Lemma section_end sect st e f b : is_ending st -> ending_for st e -> section_ok sect f -> apply_extent e (fs_body f) = Done b -> section_ok (sect ++ [st]) (set_body f b).
Proof.
  intros Hst Hfor H E.
  assert (Hend : endings [st] = [st] /\ attributes [st] = [] /\ constant_statements [st] = [] /\ st <> union_directive) by (destruct st as [d x| | | |]; try destruct Hst; destruct d; try destruct Hst; repeat split; intro X; discriminate X).
  destruct Hend as (H1 & H2 & H3 & H4).
  assert (F : body_ending (fs_body f) = None /\ body_ending b = Some e /\ body_members b = body_members (fs_body f) /\ (body_union b <-> body_union (fs_body f)) /\ (body_union b -> (2 <= length (body_members b))%nat) /\ (body_length (fs_body f) -> body_length b)).
  { destruct (fs_body f) as [|fs [x|] l|vs [|l|x l] ] eqn:Eb; cbn [apply_extent] in E; try discriminate E.
    - apply done_inj in E. subst b. cbn [body_ending body_members map body_union body_length]. repeat split; try tauto; intro X; discriminate X.
    - apply done_inj in E. subst b. cbn [body_ending body_members map body_union body_length]. split; [reflexivity|]. split; [reflexivity|]. split; [reflexivity|]. split; [tauto|]. split; [tauto|]. intros (A & B). split; [exact A|intro X; discriminate X].
    - destruct (2 <=? length vs)%nat eqn:E2; [|discriminate E]. apply Nat.leb_le in E2. apply done_inj in E. subst b. cbn [body_ending body_members map body_union body_length]. repeat split; try tauto. intros _. rewrite map_length. exact E2.
    - destruct (2 <=? length vs)%nat eqn:E2; [|discriminate E]. apply Nat.leb_le in E2. apply done_inj in E. subst b. cbn [body_ending body_members map body_union body_length]. repeat split; try tauto. intros _. rewrite map_length. exact E2. }
  destruct F as (F1 & F2 & F3 & F4 & F5 & F6). assert (E0 : endings sect = []) by (apply (ending_started sect (fs_body f)); [apply H|exact F1]).
  constructor; cbn [set_body fs_constants fs_body fs_path fs_deprecated]; unfold ending_right; rewrite ?F2, ?attributes_snoc, ?endings_snoc, ?constants_snoc, ?E0, ?H1, ?H2, ?H3, ?app_nil_r.
  - apply H.
  - apply H.
  - rewrite F3. apply H.
  - rewrite union_snoc by exact H4. rewrite F4. apply H.
  - exists st. split; [reflexivity|exact Hfor].
  - rewrite F3. apply H.
  - rewrite F3. apply H.
  - intros U _. apply F5. exact U.
  - intro L. apply F6. apply (se_length _ _ H L).
  - apply ordered_snoc; [apply H|]. constructor.
    + intro X. destruct st as [d x| | | |]; try destruct Hst; destruct X.
    + intros bits ->. destruct Hst.
    + intros x ->. destruct Hst.
    + intros x ->. destruct Hst.
    + intros _. split; [exact E0|]. intro U. apply (se_union _ _ H) in U. pose proof (Forall2_len _ _ _ (se_members _ _ H)) as L. rewrite L, <- F3. apply F5. apply F4. exact U.
    + intros x ->. destruct Hst.
    + intros t name x ->. destruct Hst.
Qed.
Lemma section_deprecated sect f g : section_ok sect f -> handle_deprecated f = Done g -> ~ In deprecated_directive sect ->
  section_ok (sect ++ [SDirective DDeprecated None]) g /\ fs_request f = None /\ fs_request g = None /\ fs_path g = fs_path f /\ fs_deprecated g = true.
Proof.
  intros H E D. unfold handle_deprecated in E. destruct (fs_deprecated f) eqn:Ed; [discriminate E|]. destruct (fs_request f) as [r|] eqn:Er; [discriminate E|].
  assert (F : body_members (fs_body f) = [] /\ body_ending (fs_body f) = None /\ g = FileState (fs_path f) (fs_constants f) true None (fs_body f)).
  { destruct (fs_body f) as [|fs x l|[|v vs] [|l|x l] ]; try discriminate E; apply done_inj in E; subst g; repeat split. }
  destruct F as (F1 & F2 & ->). split; [|repeat split]. assert (A0 : attributes sect = []) by (apply (no_attributes sect f H F1)). assert (E0 : endings sect = []) by (apply (ending_started sect (fs_body f)); [apply H|exact F2]).
  constructor; cbn [fs_constants fs_body fs_path fs_deprecated]; unfold ending_right; rewrite ?F1, ?F2, ?attributes_snoc, ?endings_snoc, ?constants_snoc, ?A0, ?E0; cbn [attributes endings constant_statements filter app map member_names flat_map]; rewrite ?app_nil_r.
  - apply H.
  - apply H.
  - constructor.
  - rewrite union_snoc by (intro X; discriminate X). apply H.
  - reflexivity.
  - constructor.
  - constructor.
  - intros _ X. destruct (X eq_refl).
  - apply H.
  - apply ordered_snoc; [apply H|]. constructor; try (intros; exfalso; assumption); try (intros; discriminate); try (intro; contradiction).
    intros e X. injection X as <-. auto.
Qed.
Lemma section_constant sect f t name e v c : section_ok sect f -> existsb (fun c => text_eqb (fst c) name) (fs_constants f) = false -> ~ reserved name -> (forall w, denotes e w -> v = w) -> check_constant to_float t v = Done c ->
  section_ok (sect ++ [SConstant t name e]) (FileState (fs_path f) (fs_constants f ++ [(name, Constant t v c)]) (fs_deprecated f) (fs_request f) (fs_body f)).
Proof.
  intros H Ex Hr Hv Hc. assert (Fresh : ~ In name (map fst (fs_constants f))).
  { intro X. apply in_map_iff in X. destruct X as (x & Ex1 & X). apply Bool.not_true_iff_false in Ex. apply Ex. apply existsb_exists. exists x. split; [exact X|]. rewrite Ex1. apply text_eqb_refl. }
  constructor; cbn [fs_constants fs_body fs_path fs_deprecated]; unfold ending_right; rewrite ?attributes_snoc, ?endings_snoc, ?constants_snoc; cbn [attributes endings constant_statements filter]; rewrite ?app_nil_r; try apply H.
  - apply Forall2_app; [apply H|]. constructor; [|constructor]. constructor; assumption.
  - rewrite map_app. cbn [map fst]. apply (Permutation_NoDup (Permutation_cons_append _ _)). constructor; [exact Fresh|apply H].
  - rewrite union_snoc by (intro X; discriminate X). apply H.
  - apply ordered_snoc; [apply H|]. constructor; try (intros; exfalso; assumption); try (intros; discriminate); try (intro; contradiction).
    intros t0 name0 e0 X t' e' Y. injection X as <- <- <-. apply Fresh. pose proof (se_constants _ _ H) as C.
    assert (Z : In (SConstant t' name e') (constant_statements sect)) by (apply filter_In; auto). destruct (Forall2_In_l _ _ _ _ C Z) as (y & Iy & Fy). inversion Fy. subst. apply in_map_iff. exists (name, Constant t' v0 c0). auto.
Qed.

(** what adding a member does to the body *)
Definition adds (f : file_state) (m : cmember) (b : body) : Prop :=
  body_ending (fs_body f) = None /\ body_ending b = None /\ body_members b = body_members (fs_body f) ++ [m] /\ (body_union b <-> body_union (fs_body f)).
Lemma section_member sect st f m b : is_attribute st -> section_ok sect f -> adds f m b -> member_for results (fs_path f) st m -> (match m with MemberPadding _ => ~ body_union (fs_body f) | MemberData _ name => ~ In name (member_names (body_members (fs_body f))) end) ->
  not_hidden (fs_deprecated f) m -> ((forall k port m, In (k, Compiled port (KMessage m)) results -> sized m) -> body_length (fs_body f) -> body_length b) ->
  section_ok (sect ++ [st]) (set_body f b).
Proof.
  intros Hst H (F1 & F2 & F3 & F4) Hm Hname Hh Hl. assert (E0 : endings sect = []) by (apply (ending_started sect (fs_body f)); [apply H|exact F1]).
  assert (A : attributes [st] = [st] /\ endings [st] = [] /\ constant_statements [st] = [] /\ st <> union_directive) by (destruct st; try destruct Hst; repeat split; intro X; discriminate X). destruct A as (A1 & A2 & A3 & A4).
  constructor; cbn [set_body fs_constants fs_body fs_path fs_deprecated]; unfold ending_right; rewrite ?F2, ?F3, ?attributes_snoc, ?endings_snoc, ?constants_snoc, ?E0, ?A1, ?A2, ?A3, ?app_nil_r.
  - apply H.
  - apply H.
  - apply Forall2_app; [apply H|]. constructor; [exact Hm|constructor].
  - rewrite union_snoc by exact A4. rewrite F4. apply H.
  - reflexivity.
  - unfold member_names. rewrite flat_map_app. fold (member_names (body_members (fs_body f))). destruct m as [bits|t name]; cbn [flat_map app]; [rewrite app_nil_r; apply H|]. apply (Permutation_NoDup (Permutation_cons_append _ _)). constructor; [exact Hname|apply H].
  - apply Forall_app. split; [apply H|]. constructor; [exact Hh|constructor].
  - intros _ X. destruct (X eq_refl).
  - intro L. apply Hl; [exact L|]. apply (se_length _ _ H L).
  - apply ordered_snoc; [apply H|]. constructor.
    + intros _. exact E0.
    + intros bits ->. inversion Hm. subst m. intro X. apply Hname. apply (se_union _ _ H). exact X.
    + intros e ->. destruct Hst.
    + intros e ->. destruct Hst.
    + intro X. destruct st; try destruct Hst; destruct X.
    + intros e ->. destruct Hst.
    + intros t name e ->. destruct Hst.
Qed.
Lemma type_for_sized path t r : (forall k port m, In (k, Compiled port (KMessage m)) results -> sized m) -> type_for results path t r -> type_sized r.
Proof.
  intros L H. assert (S : forall s x, scalar_for results path s x -> match x with RComposite _ m => sized m | _ => True end) by (intros s x X; destruct X as [p|bits|k port m Hk Hi|name a b port m k Hi]; [exact Logic.I|exact Logic.I|apply (L _ _ _ Hi)|apply (L _ _ _ Hi)]).
  destruct H as [s x H|s x e n H|s x e n H|s x e n H]; apply (S s x H).
Qed.
Lemma section_field sect f t r name b : section_ok sect f -> type_for results (fs_path f) t r -> check_deprecated f r = true -> add_field r name (fs_body f) = Done b ->
  section_ok (sect ++ [SField t name]) (set_body f b).
Proof.
  intros H Ht Hc Ha.
  assert (F : adds f (MemberData r name) b /\ ~ In name (member_names (body_members (fs_body f))) /\ (type_sized r -> body_length (fs_body f) -> body_length b)).
  { unfold adds. destruct (fs_body f) as [|fs [x|] l|vs [|l|x l] ]; cbn [add_field] in Ha; try discriminate Ha.
    - apply done_inj in Ha. subst b. cbn [body_ending body_members map body_union body_length member_of_field app member_names flat_map]. split; [repeat split; intros []|]. split; [intros []|]. intros Ts _. split; [|intros _ X; discriminate X]. rewrite (erase_update r _ Ts). apply (struct_right_first (FData r name true)). reflexivity.
    - destruct (existsb (has_name name) fs) eqn:Ex; [discriminate Ha|]. apply obind_done in Ha. destruct Ha as (al & Hal & E). apply of_res_done in Hal. apply done_inj in E. subst b. cbn [body_ending body_members body_union body_length]. rewrite map_app. split; [repeat split; intros []|]. split.
      + intro X. apply Bool.not_true_iff_false in Ex. apply Ex. unfold member_names in X. apply in_flat_map in X. destruct X as (m & Xm & Xn). apply in_map_iff in Xm. destruct Xm as (y & <- & Y). apply existsb_exists. exists y. split; [exact Y|]. destruct y as [bits a|t' n' a]; cbn [member_of_field In] in Xn; [destruct Xn|]. destruct Xn as [->|[] ]. unfold has_name. cbn [field_name]. apply text_eqb_refl.
      + intros Ts (Sr & Nn). split; [|intros _ X; destruct fs; discriminate X]. rewrite (erase_update r _ Ts). apply (struct_right_snoc fs l (FData r name al)); [apply Nn; reflexivity|exact Sr|exact Hal].
    - destruct (existsb _ vs) eqn:Ex; [discriminate Ha|]. apply done_inj in Ha. subst b. cbn [body_ending body_members body_union body_length]. rewrite map_app. split; [repeat split; tauto|]. split; [|tauto].
      intro X. apply Bool.not_true_iff_false in Ex. apply Ex. unfold member_names in X. apply in_flat_map in X. destruct X as (m & Xm & Xn). apply in_map_iff in Xm. destruct Xm as (y & <- & Y). apply existsb_exists. exists y. split; [exact Y|]. cbn [In] in Xn. destruct Xn as [->|[] ]. apply text_eqb_refl. }
  destruct F as (F1 & F2 & F3). apply (section_member sect (SField t name) f (MemberData r name) b); try assumption; [exact Logic.I|constructor; exact Ht| |].
  - cbn [not_hidden]. unfold check_deprecated in Hc. destruct (ftype_scalar r) as [k m|p|bits]; try exact Logic.I. intro D. rewrite D in Hc. destruct (fs_deprecated f); [reflexivity|discriminate Hc].
  - intro L. apply F3. apply (type_for_sized _ _ _ L Ht).
Qed.
Lemma section_padding sect f bits b : section_ok sect f -> add_padding bits (fs_body f) = Done b -> section_ok (sect ++ [SPadding bits]) (set_body f b).
Proof.
  intros H Ha.
  assert (F : adds f (MemberPadding bits) b /\ ~ body_union (fs_body f) /\ (body_length (fs_body f) -> body_length b)).
  { unfold adds. destruct (fs_body f) as [|fs [x|] l|vs [|l|x l] ]; cbn [add_padding] in Ha; try discriminate Ha.
    - apply done_inj in Ha. subst b. cbn [body_ending body_members map body_union body_length member_of_field app]. split; [repeat split; intros []|]. split; [intros []|]. intros _. split; [|intros _ X; discriminate X].
      replace (bls_single bits) with (add_member bit_length None (erase_field erase (FPadding bits true))) by (cbn [erase_field add_member]; rewrite N2Nat.id; reflexivity). apply struct_right_first. reflexivity.
    - apply obind_done in Ha. destruct Ha as (al & Hal & E). apply of_res_done in Hal. apply done_inj in E. subst b. cbn [body_ending body_members body_union body_length]. rewrite map_app. split; [repeat split; intros []|]. split; [intros []|].
      intros (Sr & Nn). split; [|intros _ X; destruct fs; discriminate X]. replace (bls_concatenate l [bls_single bits]) with (add_member bit_length (Some l) (erase_field erase (FPadding bits al))) by (cbn [erase_field add_member]; rewrite N2Nat.id; reflexivity). apply (struct_right_snoc fs l (FPadding bits al)); [apply Nn; reflexivity|exact Sr|exact Hal]. }
  destruct F as (F1 & F2 & F3). apply (section_member sect (SPadding bits) f (MemberPadding bits) b); try assumption; [exact Logic.I|constructor|exact Logic.I|auto].
Qed.

(** ** The message of a section *)

Definition message_length (m : cmessage) : operator := match c_kind m with CStruct fs => struct_length bit_length None (erased fs) | CUnion _ vs => make_union_length vs end.
(** lengths and flags of a message, before padding *)
Definition message_right (pad : bool) (m : cmessage) : Prop :=
  c_length m = (if pad then bls_pad (message_length m) 8 else message_length m) /\
  match c_kind m with CStruct fs => map flag fs = map fst (with_flags None (erased fs)) | CUnion d vs => d = discriminant_bits (length vs) end.
Record section_message (sect : list statement) (path : list text) (deprecated : bool) (pad : bool) (m : cmessage) : Prop := SectionMessage {
  sm_describes : describes to_float results path sect deprecated m;
  sm_constant_names : NoDup (map fst (c_constants m));
  sm_names : NoDup (member_names (members (c_kind m)));
  sm_hidden : Forall (not_hidden deprecated) (members (c_kind m));
  sm_two : is_union (c_kind m) -> (2 <= length (members (c_kind m)))%nat;
  sm_length : (forall k port m, In (k, Compiled port (KMessage m)) results -> sized m) -> message_right pad m;
  sm_ordered : ordered sect
}.
Lemma section_message_of sect f pad m : section_ok sect f -> message_of f pad = Done m -> section_message sect (fs_path f) (fs_deprecated f) pad m.
Proof.
  intros H E. unfold message_of in E. pose proof (se_members _ _ H) as M. pose proof (se_union _ _ H) as U. pose proof (se_ending _ _ H) as X. pose proof (se_names _ _ H) as N. pose proof (se_hidden _ _ H) as D. pose proof (se_two _ _ H) as T. pose proof (se_length _ _ H) as L.
  destruct (fs_body f) as [|fs [e|] l|vs [|l|e l] ]; try discriminate E; apply done_inj in E; subst m; cbn [body_members body_ending body_union body_length] in *.
  - constructor; cbn [c_kind c_constants members is_union].
    + constructor; cbn [c_kind c_constants c_extent c_deprecated members is_union]; [exact M|exact U|apply H|exact X|reflexivity].
    + apply H.
    + exact N.
    + exact D.
    + intros [].
    + intro Y. destruct (L Y) as ((L1 & L2) & _). split; [|exact L2]. unfold message_length. cbn [c_length c_kind]. rewrite <- L1. destruct pad; reflexivity.
    + apply H.
  - constructor; cbn [c_kind c_constants members is_union].
    + constructor; cbn [c_kind c_constants c_extent c_deprecated members is_union]; [exact M|exact U|apply H|exact X|reflexivity].
    + apply H.
    + exact N.
    + exact D.
    + intros _. apply T; [exact Logic.I|intro Y; discriminate Y].
    + intro Y. split; [|reflexivity]. unfold message_length. cbn [c_length c_kind]. rewrite <- (L Y). destruct pad; reflexivity.
    + apply H.
Qed.

(** ** A file *)

Definition no_deprecation (sts : list statement) : Prop := forall e, ~ In (SDirective DDeprecated e) sts.
Definition file_ok (pre : list statement) (path : list text) (f : file_state) : Prop :=
  fs_path f = path /\
  match fs_request f with
  | None => ~ In SMarker pre /\ section_ok pre f /\ marked_deprecated pre (fs_deprecated f)
  | Some r => exists b a, pre = b ++ SMarker :: a /\ ~ In SMarker b /\ ~ In SMarker a /\ section_message b path (fs_deprecated f) false r /\ section_ok a f /\
      marked_deprecated b (fs_deprecated f) /\ no_deprecation a
  end.
Lemma file_ok_section pre path f : file_ok pre path f -> exists sect, section_ok sect f /\ forall st g, st <> SMarker -> (forall e, st <> SDirective DDeprecated e) -> fs_path g = fs_path f -> fs_request g = fs_request f -> fs_deprecated g = fs_deprecated f -> section_ok (sect ++ [st]) g -> file_ok (pre ++ [st]) path g.
Proof.
  intros (P & H). unfold file_ok. destruct (fs_request f) as [r|] eqn:Er.
  - destruct H as (b & a & -> & N1 & N2 & R & S & D & F). exists a. split; [exact S|]. intros st g Hs Hd E1 E2 E3 G. split; [congruence|]. rewrite E2. exists b, (a ++ [st]). rewrite E3. split; [rewrite <- app_assoc; reflexivity|]. split; [exact N1|]. split; [rewrite in_app_iff; intros [X|[X|[] ] ]; [auto|congruence]|]. split; [exact R|]. split; [exact G|]. split; [exact D|].
    intros e X. apply in_app_or in X. destruct X as [X|[X|[] ] ]; [apply (F e X)|apply (Hd e X)].
  - destruct H as (N1 & S & D). exists pre. split; [exact S|]. intros st g Hs Hd E1 E2 E3 G. split; [congruence|]. rewrite E2, E3. split; [rewrite in_app_iff; intros [X|[X|[] ] ]; [auto|congruence]|]. split; [exact G|].
    unfold marked_deprecated in *. rewrite D, in_app_iff. cbn [In]. split; [auto|]. intros [X|[X|[] ] ]; [exact X|]. destruct (Hd None X).
Qed.
Lemma file_step pre path st f g : file_ok pre path f -> fstep to_float results st f g -> file_ok (pre ++ [st]) path g.
Proof.
  intros H Hs. destruct (file_ok_section pre path f H) as (sect & S & K).
  destruct Hs as [f b Hb|e n f g b T Hl Hn Hm Hb|f b Hb|f g Hg|e f g T Ha|e f g T|t name e v c f g T Ex Hr Hv Hc|t r name f g b T Ht Hd Hb|bits f b Hb|f g Hg].
  - apply K; try reflexivity; try (intros; discriminate). apply section_union; assumption.
  - destruct (touched_fields _ _ T) as (T1 & T2 & T3 & T4). apply K; try assumption; try (intros; discriminate). apply (section_end sect _ (Delimited n)); [exact Logic.I|constructor; assumption|apply (section_touched _ _ _ T S)|exact Hb].
  - apply K; try reflexivity; try (intros; discriminate). apply (section_end sect _ Sealed); [exact Logic.I|constructor|exact S|exact Hb].
  - destruct H as (P & H). assert (Er : fs_request f = None) by (unfold handle_deprecated in Hg; destruct (fs_deprecated f); [discriminate Hg|]; destruct (fs_request f); [discriminate Hg|reflexivity]).
    assert (Ed : fs_deprecated f = false) by (unfold handle_deprecated in Hg; destruct (fs_deprecated f); [discriminate Hg|reflexivity]).
    rewrite Er in H. destruct H as (N1 & S' & D). destruct (section_deprecated pre f g S' Hg) as (S2 & _ & R2 & P2 & D2); [intro X; apply D in X; rewrite Ed in X; discriminate X|].
    unfold file_ok. rewrite R2. split; [congruence|]. split; [rewrite in_app_iff; intros [X|[X|[] ] ]; [auto|discriminate X]|]. split; [exact S2|]. unfold marked_deprecated. rewrite D2. split; [intros _; apply in_or_app; right; left; reflexivity|reflexivity].
  - destruct (touched_fields _ _ T) as (T1 & T2 & T3 & T4). apply K; try assumption; try (intros; discriminate). apply section_neutral; [|apply (section_touched _ _ _ T S)]. repeat split; try (intros []); intros; discriminate.
  - destruct (touched_fields _ _ T) as (T1 & T2 & T3 & T4). apply K; try assumption; try (intros; discriminate). apply section_neutral; [|apply (section_touched _ _ _ T S)]. repeat split; try (intros []); intros; discriminate.
  - destruct (touched_fields _ _ T) as (T1 & T2 & T3 & T4). apply K; try assumption; try (intros; discriminate). apply (section_constant sect g t name e v c); [apply (section_touched _ _ _ T S)|rewrite T2; exact Ex|exact Hr|exact Hv|exact Hc].
  - destruct (touched_fields _ _ T) as (T1 & T2 & T3 & T4). apply K; try assumption; try (intros; discriminate). apply (section_field sect g t r name b); [apply (section_touched _ _ _ T S)|rewrite T1; exact Ht|exact Hd|exact Hb].
  - apply K; try reflexivity; try (intros; discriminate). apply section_padding; assumption.
  - destruct H as (P & H). unfold handle_marker in Hg. destruct (fs_request f) as [r|]; [discriminate Hg|]. apply obind_done in Hg. destruct Hg as (m & Hm & E). apply done_inj in E. subst g. destruct H as (N1 & S' & D). unfold file_ok. cbn [fs_request fs_path fs_deprecated]. split; [exact P|].
    exists pre, []. split; [reflexivity|]. split; [exact N1|]. split; [intros []|]. split; [rewrite <- P; apply section_message_of; assumption|]. split; [apply section_start|]. split; [exact D|intros e []].
Qed.
Lemma file_runs sts path g : fruns to_float results sts (init path) g -> file_ok sts path g.
Proof.
  intro H. remember (init path) as f eqn:Ef. induction H as [f|sts st f g h H IH S].
  - subst f. split; [reflexivity|]. cbn [init fs_request]. split; [intros []|]. split; [apply section_start|]. split; [intro X; discriminate X|intros []].
  - apply (file_step sts path st g h); [apply IH; exact Ef|exact S].
Qed.
(** what a file is compiled to *)
Inductive file_made (sts : list statement) (path : list text) : dsdl_kind -> Prop :=
| fm_message deprecated m : ~ In SMarker sts -> marked_deprecated sts deprecated -> section_message sts path deprecated true m -> file_made sts path (KMessage m)
| fm_service b a deprecated r m : sts = b ++ SMarker :: a -> ~ In SMarker b -> ~ In SMarker a -> marked_deprecated b deprecated -> no_deprecation a ->
    section_message b path deprecated false r -> section_message a path deprecated true m -> file_made sts path (KService r m).
Lemma file_finish sts path g port c : fruns to_float results sts (init path) g -> finish g port = Done c -> port_id c = port /\ file_made sts path (compiled_kind c).
Proof.
  intros H E. split; [apply (finish_port g _ _ E)|]. apply file_runs in H. destruct H as (P & H). unfold finish in E. apply obind_done in E. destruct E as (m & Em & E). apply done_inj in E. subst c. cbn [compiled_kind].
  destruct (fs_request g) as [r|].
  - destruct H as (b & a & -> & N1 & N2 & R & S & D & F). apply (fm_service _ _ b a (fs_deprecated g)); try assumption; [reflexivity|]. rewrite <- P. apply section_message_of; assumption.
  - destruct H as (N1 & S & D). apply (fm_message _ _ (fs_deprecated g)); try assumption. rewrite <- P. apply section_message_of; assumption.
Qed.
End Sections.

(** * All files *)

Section Package.
Context (nfc : text -> text) (powf : Qc -> Qc -> option Qc) (sort_sets : list (list value) -> list (list value)) (to_float : nat -> Qc -> option N).
Context (files : list (key * file)).
Lemma distinct_separate : distinct files -> separate (items (Persistent files [])).
Proof.
  unfold distinct, separate, items. cbn [pending done map]. rewrite app_nil_r. intro H. induction H as [|e l F H IH]; cbn [map]; constructor; [|exact IH].
  intro X. apply in_map_iff in X. destruct X as (y & E & Y). apply in_map_iff in Y. destruct Y as (z & <- & Z). rewrite Forall_forall in F. apply (F z Z). unfold file_item in E. cbn [fst] in E. apply folded_same. symmetry. exact E.
Qed.
Context (rs : list (key * compiled)) (Hc : compile nfc powf sort_sets to_float files = Done rs).
Lemma compile_built : built to_float files rs.
Proof.
  pose proof (all_right nfc powf sort_sets to_float files (length files) (Persistent files []) rs Hc) as (_ & _ & _ & _ & B). apply B; [apply incl_refl|]. intros pre k c post E. destruct pre; discriminate E.
Qed.
Lemma compile_items : distinct files -> Permutation (map file_item files) (map done_item rs).
Proof.
  intro D. pose proof (all_right nfc powf sort_sets to_float files (length files) (Persistent files []) rs Hc) as (_ & _ & _ & P & _). specialize (P (distinct_separate D)). unfold items in P. cbn [pending done map app] in P. rewrite app_nil_r in P. exact P.
Qed.
Lemma entry_made pre k c post : rs = pre ++ (k, c) :: post -> exists k0 f sts, In (k0, f) files /\ same_key k0 k /\ file_content f = Some sts /\ port_id c = file_port f /\ file_made to_float pre sts (key_path k) (compiled_kind c) /\
  exists g, fruns to_float pre sts (init (key_path k)) g.
Proof.
  intro E. apply compile_built in E. destruct E as (k0 & f & sts & g & E1 & E2 & E3 & E4 & E5). exists k0, f, sts. split; [exact E1|]. split; [exact E2|]. split; [exact E3|]. destruct (file_finish to_float pre sts (key_path k) g (file_port f) c E4 E5) as (E6 & E7). eauto.
Qed.
Lemma made_messages pre sts path c m : file_made to_float pre sts path (compiled_kind c) -> In m (messages c) -> exists sect deprecated pad, section_message to_float pre sect path deprecated pad m /\ (forall x, compiled_kind c = KMessage x -> pad = true).
Proof.
  intros H I. unfold messages in I. destruct H as [d x N D S|b a d r x E N1 N2 D F S1 S2]; cbn [In] in I.
  - destruct I as [<-|[] ]. exists sts, d, true. split; [exact S|reflexivity].
  - destruct I as [<-|[<-|[] ] ]; [exists b, d, false|exists a, d, true]; (split; [assumption|intros y Y; discriminate Y]).
Qed.
Lemma refers_scalar pre path sts m k inner : Forall2 (member_for pre path) (attributes sts) (members (c_kind m)) -> refers (c_kind m) k inner -> exists port, In (k, Compiled port (KMessage inner)) pre.
Proof.
  intros F (t & name & I & E). destruct (Forall2_In_r _ _ _ _ F I) as (st & _ & M). inversion M as [|st' r n T]. subst. 
  assert (S : forall s x, scalar_for pre path s x -> x = RComposite k inner -> exists port, In (k, Compiled port (KMessage inner)) pre) by (intros s x X Y; destruct X as [p|bits|k1 port m1 Hk Hi|nm a b port m1 k1 Hi]; try discriminate Y; injection Y as <- <-; eauto).
  destruct T as [s x T|s x e n T|s x e n T|s x e n T]; apply (S s x T E).
Qed.
Lemma contained_before m k' inner : contains m k' inner -> forall pre k c post, rs = pre ++ (k, c) :: post -> In m (messages c) -> exists port, In (k', Compiled port (KMessage inner)) pre.
Proof.
  induction 1 as [m k' inner R|m k1 inner1 k' inner R C IH]; intros pre k c post E I.
  - destruct (entry_made pre k c post E) as (k0 & f & sts & _ & _ & _ & _ & M & _). destruct (made_messages pre sts _ c m M I) as (sect & d & pad & S & _). apply (refers_scalar pre (key_path k) sect m k' inner); [apply (ds_members _ _ _ _ _ _ (sm_describes _ _ _ _ _ _ _ S))|exact R].
  - destruct (entry_made pre k c post E) as (k0 & f & sts & _ & _ & _ & _ & M & _). destruct (made_messages pre sts _ c m M I) as (sect & d & pad & S & _). destruct (refers_scalar pre (key_path k) sect m k1 inner1) as (port & Ip); [apply (ds_members _ _ _ _ _ _ (sm_describes _ _ _ _ _ _ _ S))|exact R|].
    apply in_split in Ip. destruct Ip as (pre1 & post1 & ->). rewrite <- app_assoc in E. cbn [app] in E. destruct (IH pre1 k1 _ _ E) as (port' & Ip'); [left; reflexivity|]. exists port'. apply in_or_app. left. exact Ip'.
Qed.
Lemma rs_distinct : distinct files -> forall pre k c post k' c', rs = pre ++ (k, c) :: post -> In (k', c') (pre ++ post) -> ~ same_key k k'.
Proof.
  intros D pre k c post k' c' E I Sk. pose proof (compile_items D) as P. pose proof (distinct_separate D) as N. unfold separate, items in N. cbn [pending done map] in N. rewrite app_nil_r in N. apply (separate_permutation _ _ P) in N. unfold separate in N. rewrite E, !map_app in N. cbn [map] in N. apply NoDup_remove_2 in N. apply N. rewrite <- !map_app. apply in_map_iff. exists (done_item (k', c')). split; [cbn [done_item fst]; symmetry; apply folded_same; exact Sk|]. apply in_map. exact I.
Qed.
(** lengths *)
Lemma union_erase vs : Forall (fun v : ftype cmessage * text => type_sized (fst v)) vs -> union_length bit_length (map (fun v => erase_type erase (fst v)) vs) = make_union_length vs.
Proof.
  intro H. unfold union_length, make_union_length. rewrite map_length. do 2 f_equal. rewrite map_map. f_equal. induction H as [|v vs Hv H IH]; [reflexivity|]. cbn [map]. rewrite (erase_type_size _ Hv).
  replace (map (fun x => type_size bit_length (erase_type erase (fst x))) vs) with (map (fun v : ftype cmessage * text => ftype_size (fst v)) vs); [reflexivity|]. apply map_ext_in. intros x X. symmetry. apply erase_type_size. rewrite Forall_forall in H. apply H, X.
Qed.
Lemma right_sized pre path sect m pad : (forall k port m, In (k, Compiled port (KMessage m)) pre -> sized m) -> Forall2 (member_for pre path) (attributes sect) (members (c_kind m)) -> message_right pad m ->
  (if pad then c_length m else bls_pad (c_length m) 8) = bit_length (erase m).
Proof.
  intros L F (R & _). assert (K : message_length m = kind_length bit_length (match c_kind m with CStruct fs => KStruct (erased fs) | CUnion _ vs => KUnion (map (fun v => erase_type erase (fst v)) vs) end)).
  { unfold message_length. destruct (c_kind m) as [fs|d vs]; [reflexivity|]. cbn [kind_length]. symmetry. apply union_erase. apply Forall_forall. intros v V. cbn [members] in F.
    destruct (Forall2_In_r _ _ _ (MemberData (fst v) (snd v)) F) as (st & _ & M); [apply in_map_iff; exists v; split; [reflexivity|exact V]|]. inversion M as [|t r n T]. subst. apply (type_for_sized pre path t _ L T). }
  destruct m as [d e k l cs]. cbn [c_length c_kind] in *. cbn [erase bit_length]. fold erase. change (match k with CStruct fs => KStruct (map (erase_field erase) fs) | CUnion _ vs => KUnion (map (fun v => erase_type erase (fst v)) vs) end) with (match k with CStruct fs => KStruct (erased fs) | CUnion _ vs => KUnion (map (fun v => erase_type erase (fst v)) vs) end). rewrite <- K. destruct pad; rewrite R; reflexivity.
Qed.
Lemma prefix_sized pre : forall post, rs = pre ++ post -> forall k port m, In (k, Compiled port (KMessage m)) pre -> sized m.
Proof.
  induction pre as [|(k1 & c1) pre IH] using rev_ind; intros post E k port m I; [destruct I|]. rewrite <- app_assoc in E. cbn [app] in E. specialize (IH _ E). apply in_app_or in I. destruct I as [I|[I|[] ] ]; [apply (IH _ _ _ I)|]. injection I as -> ->.
  destruct (entry_made pre k _ post E) as (k0 & f & sts & _ & _ & _ & _ & M & _). destruct (made_messages pre sts _ _ m M) as (sect & d & pad & S & Hp); [left; reflexivity|]. pose proof (Hp m eq_refl) as Ep. subst pad. apply (right_sized pre (key_path k) sect m true IH); [apply (ds_members _ _ _ _ _ _ (sm_describes _ _ _ _ _ _ _ S))|apply (sm_length _ _ _ _ _ _ _ S IH)].
Qed.
Lemma describes_more r r' path sts d m : incl r r' -> describes to_float r path sts d m -> describes to_float r' path sts d m.
Proof.
  intros I [A B C D E]. constructor; try assumption. clear - A I. induction A as [|st x l l' H A IH]; constructor; [apply (member_more r); assumption|exact IH].
Qed.
Lemma file_made_for pre sts path k : incl pre rs -> file_made to_float pre sts path k -> file_for to_float rs path sts k.
Proof.
  intros I H. destruct H as [d m N D S|b a d r m E N1 N2 D F S1 S2].
  - apply (ff_message _ _ _ _ d); try assumption. apply (describes_more pre); [exact I|apply S].
  - subst sts. apply (ff_service _ _ _ _ _ d); try assumption; apply (describes_more pre); try exact I; [apply S1|apply S2].
Qed.
End Package.
Lemma runs_assertions to_float results sts f g : fruns to_float results sts f g -> forall e, In (SDirective DAssert (Some e)) sts -> forall w, denotes e w -> w = VBool true.
Proof.
  induction 1 as [f|sts st f g h H IH S]; intros e I w W; [destruct I|]. apply in_app_or in I. destruct I as [I|[I|[] ] ]; [apply (IH e I w W)|]. subst st. inversion S. subst. auto.
Qed.
