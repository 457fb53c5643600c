(** Proofs about the compiler of DSDL files: what must be accepted. *)
From Coq Require Import QArith Qcanon Lia ZifyBool ZifyN ZifyNat Permutation.
From Verif Require Import Base BlsModel BlsSpec BlsProofs BlsProps GenModel GenLenProofs ExprModel ExprSpec ExprProofs PkgModel PkgSpec PkgProofs CompModel CompSpec CompProofs CompFileProofs CompAcceptSpec.
Open Scope list_scope.
Open Scope N_scope.
Ltac Zify.zify_post_hook ::= Z.div_mod_to_equations.

Lemma denotes_one e v w : denotes e v -> denotes e w -> v = w.
Proof.
  intros A B. pose proof (denotes_right (fun t => t) (fun _ _ => None) (fun l => l) unit (fun s => (Leaf [0], s)) (fun _ => []) (fun _ _ => Fail) e v A tt) as X.
  pose proof (denotes_right (fun t => t) (fun _ _ => None) (fun l => l) unit (fun s => (Leaf [0], s)) (fun _ => []) (fun _ _ => Fail) e w B tt) as Y. rewrite X in Y. apply done_inj in Y. injection Y as E. exact E.
Qed.
Lemma number_is e n : number e n -> length_is e n.
Proof. intros H v V. apply (denotes_one e); assumption. Qed.
Lemma written_type r path t x : type_written r path t x -> type_for r path t x.
Proof. intros [s y H|s y e n H L B|s y e n H L B|s y e n H L B]; constructor; try assumption; apply number_is; assumption. Qed.
Lemma written_member r path st x : member_written r path st x -> member_for r path st x.
Proof. intros [bits|t y name H]; constructor. apply written_type. exact H. Qed.
Lemma qint_of_N n : qint (integer (Z.of_N n)) = Some (Z.of_N n).
Proof. apply qint_right. reflexivity. Qed.

(** the struct's length before a field can be calculated *)
Lemma struct_length_app bl a b : forall o, a <> [] -> struct_length bl o (a ++ b) = struct_length bl (Some (struct_length bl o a)) b.
Proof.
  induction a as [|f a IH]; intros o H; [destruct (H eq_refl)|]. cbn [app struct_length]. change (struct_length bl (Some (add_member bl o f)) (a ++ b) = struct_length bl (Some (struct_length bl (Some (add_member bl o f)) a)) b).
  destruct a as [|g a]; [reflexivity|]. apply IH. intro E. discriminate E.
Qed.
Lemma aligned_prefix a b : a <> [] -> bls_ok (struct_length bit_length None (a ++ b)) ->
  exists x, bls_is_byte_aligned (struct_length bit_length None a) = Ok x /\ (x = true <-> forall v, den (struct_length bit_length None a) v -> v mod 8 = 0).
Proof.
  intros N H. rewrite (struct_length_app _ a b None N) in H. apply ok_struct in H. destruct H as (H & _). cbn [ok_opt] in H.
  destruct (nice_struct bit_length a (nice_members a) None Logic.I) as (S & C). apply (C43_byte_aligned_partial _ H S C).
Qed.

Lemma with_flags_length fs : forall o, length (with_flags o fs) = length fs.
Proof. induction fs as [|f fs IH]; intro o; [reflexivity|]. cbn [with_flags length]. rewrite IH. reflexivity. Qed.
Lemma with_flags_app a f b : forall o, with_flags o (a ++ f :: b) = with_flags o a ++ (always_aligned (match a with [] => o | _ => Some (struct_length bit_length o a) end), f) ::
  with_flags (Some (add_member bit_length (match a with [] => o | _ => Some (struct_length bit_length o a) end) f)) b.
Proof.
  induction a as [|g a IH]; intro o; [reflexivity|]. cbn [app with_flags]. f_equal. rewrite IH. replace (match a with [] => Some (add_member bit_length o g) | _ => Some (struct_length bit_length (Some (add_member bit_length o g)) a) end) with (Some (struct_length bit_length o (g :: a))) by (destruct a; reflexivity). reflexivity.
Qed.
Lemma app_inj_length {A} (a a' b b' : list A) : length a = length a' -> a ++ b = a' ++ b' -> a = a' /\ b = b'.
Proof.
  revert a'. induction a as [|x a IH]; intros [|y a'] L E; try discriminate L; [auto|]. cbn [app] in E. injection E as -> E. destruct (IH a' ltac:(cbn [length] in L; lia) E) as (-> & ->). auto.
Qed.

Section Accept.
Context (nfc : text -> text) (powf : Qc -> Qc -> option Qc) (sort_sets : list (list value) -> list (list value)) (to_float : nat -> Qc -> option N).
Context (results : list (key * compiled)) (Q : persistent -> Prop) (by_key : key -> persistent -> out (compiled * persistent)).
Context (Hby : forall k c p, In (k, c) results -> Q p -> exists q, by_key k p = Done (c, q) /\ Q q).
Context (Hsized : forall k port m, In (k, Compiled port (KMessage m)) results -> sized m).
Notation evaluate := (evaluate nfc powf sort_sets by_key).
Notation statement_run := (run_statement nfc powf sort_sets to_float by_key).
Notation section_ok := (section_ok to_float results).

Lemma evaluate_denotes e v s : denotes e v -> evaluate e s = Done (v, s).
Proof. intro H. apply (denotes_right nfc powf sort_sets state offset constants_of (lookup by_key) e v H s). Qed.
Lemma resolve_scalar_accepts t r p f : scalar_for results (fs_path f) t r -> Q p -> exists q, resolve_scalar by_key t (p, f) = Done (r, (q, f)) /\ Q q.
Proof.
  intros H Hq. destruct H as [x|bits|k port m Hk Hi|name a b port m k Hi]; cbn [resolve_scalar].
  - exists p. auto.
  - exists p. auto.
  - unfold lookup_type, canonical. cbn [fst snd]. destruct (key_path k) as [|w ws] eqn:Ek; [destruct (Hk eq_refl)|]. destruct (Hby _ _ p Hi Hq) as (q & E & Hq'). rewrite E. exists q. auto.
  - unfold lookup_type, canonical. cbn [fst snd key_path key_name key_major key_minor]. destruct (Hby _ _ p Hi Hq) as (q & E & Hq'). fold k. rewrite E. exists q. auto.
Qed.
Lemma type_accepts t r p f : type_written results (fs_path f) t r -> Q p -> exists d q, convert_type nfc powf sort_sets by_key t (p, f) = Done (d, (p, f)) /\ resolve by_key d (p, f) = Done (r, (q, f)) /\ Q q.
Proof.
  intros H Hq. destruct H as [s x H|s x e n H L B|s x e n H L B|s x e n H L B]; destruct (resolve_scalar_accepts s x p f H Hq) as (q & E & Hq').
  - exists (DScalar s), q. cbn [convert_type resolve]. rewrite E. auto.
  - exists (DFixed s n), q. cbn [convert_type resolve]. rewrite (evaluate_denotes _ _ _ L), E. cbn [obind fst snd array_length]. rewrite qint_of_N. rewrite (proj2 (Z.ltb_ge _ 0) (N2Z.is_nonneg n)). rewrite (proj2 (Z.ltb_lt (Z.of_N n) (2 ^ 64))) by lia. cbn [obind array_type]. rewrite N2Z.id. auto.
  - exists (DVariable s n), q. cbn [convert_type resolve]. rewrite (evaluate_denotes _ _ _ L), E. cbn [obind fst snd array_length]. rewrite qint_of_N. rewrite (proj2 (Z.ltb_ge _ 0) (N2Z.is_nonneg n)). rewrite (proj2 (Z.ltb_lt (Z.of_N n) (2 ^ 64))) by lia. cbn [obind array_type]. rewrite N2Z.id. auto.
  - exists (DVariable s n), q. cbn [convert_type resolve]. rewrite (evaluate_denotes _ _ _ L), E. cbn [obind fst snd array_length]. rewrite qint_of_N. rewrite (proj2 (Z.ltb_ge _ 0) (N2Z.is_nonneg (n + 1))). rewrite (proj2 (Z.ltb_lt (Z.of_N (n + 1)) (2 ^ 64))) by lia. cbn [obind array_type]. rewrite N2Z.id. rewrite (proj2 (N.ltb_lt 0 (n + 1))) by lia. cbn [obind]. replace (n + 1 - 1) with n by lia. auto.
Qed.

(** ** A section *)
Context (path : list text) (sts : list statement) (deprecated pad : bool) (m : cmessage) (response : bool) (req : option cmessage).
Context (D : declares to_float results path sts deprecated pad m) (Hmark : ~ In SMarker sts).
Context (Hdep : if response then forall e, ~ In (SDirective DDeprecated e) sts else marked_deprecated sts deprecated).
Context (Hreq : response = match req with None => false | Some _ => true end).
Definition unused (b : body) : Prop := match b with BUnion _ (UUsed _) => False | _ => True end.
Record ready (pre : list statement) (f : file_state) (rest : list cmember) : Prop := Ready {
  rd_section : section_ok pre f;
  rd_unused : unused (fs_body f);
  rd_path : fs_path f = path;
  rd_deprecated : if response then fs_deprecated f = deprecated else marked_deprecated pre (fs_deprecated f);
  rd_request : fs_request f = req;
  rd_members : body_members (fs_body f) ++ rest = members (c_kind m)
}.
Lemma attribute_deprecated pre st post f rest : sts = pre ++ st :: post -> is_attribute st -> ready pre f rest -> fs_deprecated f = deprecated.
Proof.
  intros E A R. pose proof (rd_deprecated _ _ _ R) as X. pose proof Hdep as Hd. destruct response; [exact X|]. unfold marked_deprecated in *. assert (K : In deprecated_directive sts <-> In deprecated_directive pre).
  { rewrite E, in_app_iff. split; [|auto]. intros [Y|[Y|Y] ]; [exact Y|subst st; destruct A|]. exfalso. apply in_split in Y. destruct Y as (a & b & Y). assert (O : allowed (pre ++ st :: a) deprecated_directive) by (apply (dc_ordered _ _ _ _ _ _ _ D _ _ b); rewrite E, Y, <- app_assoc; reflexivity).
    destruct (al_deprecated _ _ O None eq_refl) as (_ & F & _). unfold attributes in F. rewrite filter_app in F. apply app_eq_nil in F. destruct F as (_ & F). cbn [filter] in F. destruct st; try destruct A; discriminate F. }
  destruct (fs_deprecated f), deprecated; try reflexivity; exfalso.
  - assert (Y : false = true) by (apply Hd, K, X; reflexivity). discriminate Y.
  - assert (Y : false = true) by (apply X, K, Hd; reflexivity). discriminate Y.
Qed.
Lemma erased_members fs gs : map member_of_field fs = map member_of_field gs -> erased fs = erased gs.
Proof.
  revert gs. induction fs as [|x fs IH]; intros [|y gs] E; try discriminate E; [reflexivity|]. cbn [map] in E. injection E as E1 E2. cbn [erased map]. f_equal; [|apply IH; exact E2]. destruct x, y; cbn [member_of_field] in E1; try discriminate E1; injection E1; intros; subst; reflexivity.
Qed.
Lemma aligned_now pre st post f rest fs l : sts = pre ++ st :: post -> is_attribute st -> ready pre f rest -> fs_body f = BStruct fs None l -> exists a, bls_is_byte_aligned l = Ok a.
Proof.
  intros E A R Eb. pose proof (rd_section _ _ _ R) as S. pose proof (se_length _ _ _ _ S Hsized) as L. pose proof (dc_layout _ _ _ _ _ _ _ D) as (_ & La). pose proof (dc_union _ _ _ _ _ _ _ D) as Du. pose proof (se_union _ _ _ _ S) as U. pose proof (rd_members _ _ _ R) as M. pose proof (Forall2_len _ _ _ (se_members _ _ _ _ S)) as Le. rewrite Eb in *. cbn [body_members body_length body_union] in *. destruct L as ((L1 & _) & L2). specialize (L2 eq_refl).
  destruct (c_kind m) as [gs|bits vs].
  - cbn [members] in M. destruct La as (La & _). assert (G : exists g1 g2, gs = g1 ++ g2 /\ map member_of_field g1 = map member_of_field fs).
    { exists (firstn (length fs) gs), (skipn (length fs) gs). split; [symmetry; apply firstn_skipn|]. rewrite <- firstn_map, <- M, firstn_app, map_length, Nat.sub_diag. cbn [firstn]. rewrite app_nil_r, <- (map_length member_of_field fs). apply firstn_all. }
    destruct G as (g1 & g2 & -> & G). apply erased_members in G. rewrite map_app in La. destruct (aligned_prefix (erased g1) (erased g2)) as (x & X & _); [rewrite G; destruct fs; [destruct (L2 eq_refl)|intro Z; discriminate Z]|exact La|]. exists x. rewrite L1, <- G. exact X.
  - exfalso. pose proof (proj1 Du Logic.I) as X. rewrite E in X. apply in_app_or in X. destruct X as [X|[X|X] ]; [apply U; exact X|subst st; destruct A|]. apply in_split in X. destruct X as (a & b & X). assert (O : allowed (pre ++ st :: a) union_directive) by (apply (dc_ordered _ _ _ _ _ _ _ D _ _ b); rewrite E, X, <- app_assoc; reflexivity).
    destruct (al_union _ _ O None eq_refl) as (_ & F & _). unfold attributes in F. rewrite filter_app in F. apply app_eq_nil in F. destruct F as (F & _). fold (attributes pre) in F. rewrite F, map_length in Le. destruct fs; [destruct (L2 eq_refl)|discriminate Le].
Qed.
Lemma step_accepts pre st post f p rest : sts = pre ++ st :: post -> ready pre f rest -> Q p -> Forall2 (member_written results path) (attributes (st :: post)) rest ->
  exists q g rest', statement_run st (p, f) = Done (q, g) /\ Q q /\ ready (pre ++ [st]) g rest' /\ Forall2 (member_written results path) (attributes post) rest'.
Proof.
  intros E R Hq F. pose proof (dc_ordered _ _ _ _ _ _ _ D _ _ _ E) as A. pose proof (rd_section _ _ _ R) as S. assert (I : In st sts) by (rewrite E; apply in_or_app; right; left; reflexivity).
  assert (NoEnd : endings pre = [] -> body_ending (fs_body f) = None).
  { intro X. pose proof (se_ending _ _ _ _ S) as Y. destruct (body_ending (fs_body f)); [|reflexivity]. destruct Y as (s & Y & _). rewrite X in Y. discriminate Y. }
  assert (Dep : forall st', (forall e, st' <> SDirective DDeprecated e) -> if response then fs_deprecated f = deprecated else marked_deprecated (pre ++ [st']) (fs_deprecated f)).
  { intros st' N. pose proof (rd_deprecated _ _ _ R) as X. destruct response; [exact X|]. unfold marked_deprecated in *. rewrite X, in_app_iff. split; [auto|]. intros [Y|[Y|[] ] ]; [exact Y|destruct (N None Y)]. }
  destruct st as [d e|t name e|t name|bits|].
  - destruct d.
    + (* union *) destruct (al_union _ _ A e eq_refl) as (-> & A0 & E0 & U0). assert (B : fs_body f = BStart).
      { pose proof (se_members _ _ _ _ S) as M. rewrite A0 in M. assert (B : body_members (fs_body f) = []) by (inversion M; reflexivity). pose proof (NoEnd E0) as N. pose proof (se_union _ _ _ _ S) as U. pose proof (se_length _ _ _ _ S Hsized) as L. destruct (fs_body f) as [|fs e l|vs u]; [reflexivity| |destruct U0; apply U; exact Logic.I]. cbn [body_ending body_members body_length] in *. subst e. destruct L as (_ & L). destruct fs; [destruct (L eq_refl eq_refl)|discriminate B]. }
      exists p, (set_body f (BUnion [] UCollecting)), rest. cbn [run_statement evaluate_directive with_body fst snd]. rewrite B. cbn [handle_union obind]. split; [reflexivity|]. split; [exact Hq|]. split; [|exact F].
      constructor; cbn [set_body fs_body fs_path fs_deprecated fs_request]; try apply R; [apply section_union; [exact S|rewrite B; reflexivity]|exact Logic.I|apply Dep; intros x X; discriminate X|]. pose proof (rd_members _ _ _ R) as M. rewrite B in M. exact M.
    + (* extent *) destruct (dc_ending _ _ _ _ _ _ _ D) as (se & Es & W). assert (Se : In (SDirective DExtent e) (endings sts)) by (apply filter_In; auto). rewrite Es in Se. destruct Se as [->|[] ]. inversion W as [|x n Hn Hb Hm X1 X2]. subst e.
      destruct (al_ending _ _ A Logic.I) as (E0 & U2). pose proof (NoEnd E0) as N. pose proof (rd_unused _ _ _ R) as Uu.
      assert (Ap : exists b, apply_extent (Delimited n) (fs_body f) = Done b /\ unused b /\ body_members b = body_members (fs_body f)).
      { pose proof (se_union _ _ _ _ S) as U. pose proof (Forall2_len _ _ _ (se_members _ _ _ _ S)) as L. destruct (fs_body f) as [|fs [y|] l|vs [|l|y l] ]; try discriminate N; try destruct Uu; cbn [apply_extent]; try (eexists; split; [reflexivity|]; split; [exact Logic.I|reflexivity]).
        cbn [body_members] in L. rewrite map_length in L. specialize (U2 (proj1 U Logic.I)). rewrite L in U2. apply Nat.leb_le in U2. rewrite U2. eexists. split; [reflexivity|]. split; [exact Logic.I|reflexivity]. }
      destruct Ap as (b & Eb & Ub & Mb). exists p, (set_body f b), rest. cbn [run_statement evaluate_directive]. rewrite (evaluate_denotes x _ _ Hn). cbn [obind fst snd]. rewrite qint_of_N. rewrite (proj2 (Z.leb_le 0 _) (N2Z.is_nonneg n)), (proj2 (Z.ltb_lt (Z.of_N n) (2 ^ 64))) by lia. rewrite (proj2 (Z.eqb_eq (Z.of_N n mod 8) 0)) by lia. cbn [andb]. rewrite N2Z.id. unfold with_body. cbn [fst snd]. rewrite Eb. cbn [obind]. split; [reflexivity|]. split; [exact Hq|]. split; [|exact F].
      constructor; cbn [set_body fs_body fs_path fs_deprecated fs_request]; try apply R; [|exact Ub|apply Dep; intros y Y; discriminate Y|rewrite Mb; apply R].
      apply (section_end _ _ pre _ (Delimited n)); [exact Logic.I|constructor; [apply number_is|..]; assumption|exact S|exact Eb].
    + (* sealed *) destruct (dc_ending _ _ _ _ _ _ _ D) as (se & Es & W). assert (Se : In (SDirective DSealed e) (endings sts)) by (apply filter_In; auto). rewrite Es in Se. destruct Se as [->|[] ]. inversion W as [X1 X2|]. subst e.
      destruct (al_ending _ _ A Logic.I) as (E0 & U2). pose proof (NoEnd E0) as N. pose proof (rd_unused _ _ _ R) as Uu.
      assert (Ap : exists b, apply_extent Sealed (fs_body f) = Done b /\ unused b /\ body_members b = body_members (fs_body f)).
      { pose proof (se_union _ _ _ _ S) as U. pose proof (Forall2_len _ _ _ (se_members _ _ _ _ S)) as L. destruct (fs_body f) as [|fs [y|] l|vs [|l|y l] ]; try discriminate N; try destruct Uu; cbn [apply_extent]; try (eexists; split; [reflexivity|]; split; [exact Logic.I|reflexivity]).
        cbn [body_members] in L. rewrite map_length in L. specialize (U2 (proj1 U Logic.I)). rewrite L in U2. apply Nat.leb_le in U2. rewrite U2. eexists. split; [reflexivity|]. split; [exact Logic.I|reflexivity]. }
      destruct Ap as (b & Eb & Ub & Mb). exists p, (set_body f b), rest. cbn [run_statement evaluate_directive]. unfold with_body. cbn [fst snd]. rewrite Eb. cbn [obind]. split; [reflexivity|]. split; [exact Hq|]. split; [|exact F].
      constructor; cbn [set_body fs_body fs_path fs_deprecated fs_request]; try apply R; [|exact Ub|apply Dep; intros y Y; discriminate Y|rewrite Mb; apply R].
      apply (section_end _ _ pre _ Sealed); [exact Logic.I|constructor|exact S|exact Eb].
    + (* deprecated *) destruct (al_deprecated _ _ A e eq_refl) as (-> & A0 & E0 & U0). pose proof (rd_deprecated _ _ _ R) as X. assert (Er : response = false) by (pose proof Hdep as Hd; destruct response; [destruct (Hd None I)|reflexivity]). assert (Rq : fs_request f = None) by (rewrite (rd_request _ _ _ R); rewrite Hreq in Er; destruct req; [discriminate Er|reflexivity]). rewrite Er in X.
      assert (Fd : fs_deprecated f = false) by (destruct (fs_deprecated f); [destruct U0; apply X; reflexivity|reflexivity]).
      assert (Hd : handle_deprecated f = Done (FileState (fs_path f) (fs_constants f) true (fs_request f) (fs_body f))).
      { unfold handle_deprecated. rewrite Fd, Rq. pose proof (se_members _ _ _ _ S) as M. rewrite A0 in M. assert (B : body_members (fs_body f) = []) by (inversion M; reflexivity). pose proof (NoEnd E0) as N. pose proof (se_length _ _ _ _ S Hsized) as L. pose proof (rd_unused _ _ _ R) as Uu.
        destruct (fs_body f) as [|fs [y|] l|vs [|l|y l] ]; try discriminate N; try destruct Uu; cbn [body_members body_length] in *; [reflexivity| |destruct vs; [reflexivity|discriminate B] ]. destruct L as (_ & L). destruct fs; [destruct (L eq_refl eq_refl)|discriminate B]. }
      eexists p, _, rest. cbn [run_statement evaluate_directive]. cbn [snd fst]. rewrite Hd. cbn [obind]. split; [reflexivity|]. split; [exact Hq|]. split; [|exact F].
      destruct (section_deprecated _ _ pre f _ S Hd U0) as (S2 & _). constructor; cbn [fs_body fs_path fs_deprecated fs_request]; try apply R; [exact S2|]. rewrite Er. unfold marked_deprecated. split; [intros _; apply in_or_app; right; left; reflexivity|reflexivity].
    + (* assert *) destruct (dc_asserts _ _ _ _ _ _ _ D e I) as (x & -> & Hx). exists p, f, rest. cbn [run_statement evaluate_directive]. rewrite (evaluate_denotes x _ _ Hx). cbn [obind fst snd]. split; [reflexivity|]. split; [exact Hq|]. split; [|exact F].
      constructor; try apply R; [|apply Dep; intros y Y; discriminate Y]. apply section_neutral; [|exact S]. repeat split; try (intros []); intros; discriminate.
    + (* print *) assert (Hx : forall x, e = Some x -> exists v, denotes x v) by (intros x ->; apply (dc_prints _ _ _ _ _ _ _ D x I)). exists p, f, rest. split; [|split; [exact Hq|split; [|exact F] ] ].
      * cbn [run_statement evaluate_directive]. destruct e as [x|]; [|reflexivity]. destruct (Hx x eq_refl) as (v & V). rewrite (evaluate_denotes x _ _ V). reflexivity.
      * constructor; try apply R; [|apply Dep; intros y Y; discriminate Y]. apply section_neutral; [|exact S]. repeat split; try (intros []); intros; discriminate.
    + destruct (al_known _ _ A e eq_refl).
  - (* constant *) assert (Ic : In (SConstant t name e) (constant_statements sts)) by (apply filter_In; auto). destruct (Forall2_In_l _ _ _ _ (dc_constants _ _ _ _ _ _ _ D) Ic) as (y & _ & Y). inversion Y as [t' name' e' v c Hr Hv Hc]. subst t' name' e'.
    assert (Ex : existsb (fun c => text_eqb (fst c) name) (fs_constants f) = false).
    { apply Bool.not_true_iff_false. intro X. apply existsb_exists in X. destruct X as (z & Z1 & Z2). apply text_eqb_eq in Z2. destruct (Forall2_In_r _ _ _ _ (se_constants _ _ _ _ S) Z1) as (s & S1 & S2). inversion S2 as [t'' n'' e'' v'' c'' _ _ _ Q1 Q2]. subst s z. cbn [fst] in Z2. subst n''. apply filter_In in S1. destruct S1 as (S1 & _). apply (al_constant _ _ A t name e eq_refl t'' e'' S1). }
    eexists p, _, rest. cbn [run_statement]. unfold evaluate_constant. cbn [fst snd]. rewrite Ex. destruct (is_reserved_keyword name) eqn:Ek; [destruct (Hr (proj1 (reserved_right name) Ek))|]. rewrite (evaluate_denotes e _ _ Hv). cbn [obind fst snd]. rewrite Hc. cbn [obind]. split; [reflexivity|]. split; [exact Hq|]. split; [|exact F].
    constructor; cbn [fs_body fs_path fs_deprecated fs_request]; try apply R; [|apply Dep; intros z Z; discriminate Z]. apply section_constant; try assumption. intros w W. apply (denotes_one e); assumption.
  - (* field *) cbn [attributes filter] in F. fold (attributes post) in F. inversion F as [|s x l l' Fx Fr]. subst s l rest. inversion Fx as [|t' r n' Ht]. subst t' n' x.
    pose proof (al_attribute _ _ A Logic.I) as E0. pose proof (NoEnd E0) as N. assert (P : fs_path f = path) by apply R. rewrite <- P in Ht. destruct (type_accepts t r p f Ht Hq) as (d & q & C1 & C2 & Hq'). pose proof (attribute_deprecated pre _ post f _ E Logic.I R) as Ed. pose proof (rd_members _ _ _ R) as M.
    assert (Cd : check_deprecated f r = true).
    { unfold check_deprecated. destruct (ftype_scalar r) as [k i| |] eqn:Er; try reflexivity. destruct (c_deprecated i) eqn:Ei; [|destruct (fs_deprecated f); reflexivity]. rewrite Ed. rewrite (dc_hidden _ _ _ _ _ _ _ D k i); [reflexivity| |exact Ei]. exists r, name. split; [|exact Er]. rewrite <- M. apply in_or_app. right. left. reflexivity. }
    assert (Nm : ~ In name (member_names (body_members (fs_body f)))).
    { pose proof (dc_names _ _ _ _ _ _ _ D) as X. rewrite <- M in X. unfold member_names in X. rewrite flat_map_app in X. cbn [flat_map app] in X. apply NoDup_remove_2 in X. intro Y. apply X. apply in_or_app. left. exact Y. }
    assert (Ab : exists b, add_field r name (fs_body f) = Done b /\ unused b /\ body_members b = body_members (fs_body f) ++ [MemberData r name]).
    { pose proof (rd_unused _ _ _ R) as Uu. pose proof (fun fs l => aligned_now pre _ post f _ fs l E Logic.I R) as Al. destruct (fs_body f) as [|fs [y|] l|vs [|l|y l] ]; try discriminate N; try destruct Uu; cbn [add_field body_members] in *.
      - eexists. split; [reflexivity|]. split; [exact Logic.I|reflexivity].
      - destruct (existsb (has_name name) fs) eqn:Ex.
        + exfalso. apply existsb_exists in Ex. destruct Ex as (z & Z1 & Z2). apply Nm. unfold member_names. apply in_flat_map. exists (member_of_field z). split; [apply in_map; exact Z1|]. unfold has_name in Z2. destruct z as [bits a|tz nz a]; cbn [field_name] in Z2; [discriminate Z2|]. apply text_eqb_eq in Z2. subst nz. left. reflexivity.
        + destruct (Al fs l eq_refl) as (x & Ax). rewrite Ax. cbn [of_res obind]. eexists. split; [reflexivity|]. split; [exact Logic.I|]. cbn [body_members]. rewrite map_app. reflexivity.
      - destruct (existsb _ vs) eqn:Ex.
        + exfalso. apply existsb_exists in Ex. destruct Ex as (z & Z1 & Z2). apply Nm. unfold member_names. apply in_flat_map. exists (MemberData (fst z) (snd z)). split; [apply in_map_iff; exists z; split; [reflexivity|exact Z1]|]. apply text_eqb_eq in Z2. subst name. left. reflexivity.
        + eexists. split; [reflexivity|]. split; [exact Logic.I|]. cbn [body_members]. rewrite map_app. reflexivity. }
    destruct Ab as (b & Eb & Ub & Mb). exists q, (set_body f b), l'. cbn [run_statement]. rewrite C1. cbn [obind fst snd]. rewrite C2. cbn [obind fst snd]. rewrite Cd. unfold with_body. cbn [fst snd]. rewrite Eb. cbn [obind]. split; [reflexivity|]. split; [exact Hq'|]. split; [|exact Fr].
    constructor; cbn [set_body fs_body fs_path fs_deprecated fs_request]; try apply R; [|exact Ub|apply Dep; intros z Z; discriminate Z|rewrite Mb, <- app_assoc; exact M].
    apply (section_field _ _ pre f t r name b S (written_type _ _ _ _ Ht) Cd Eb).
  - (* padding *) cbn [attributes filter] in F. fold (attributes post) in F. inversion F as [|s x l l' Fx Fr]. subst s l rest. inversion Fx as [bits'|]. subst bits' x.
    pose proof (al_attribute _ _ A Logic.I) as E0. pose proof (NoEnd E0) as N. pose proof (rd_members _ _ _ R) as M.
    assert (Ab : exists b, add_padding bits (fs_body f) = Done b /\ unused b /\ body_members b = body_members (fs_body f) ++ [MemberPadding bits]).
    { pose proof (rd_unused _ _ _ R) as Uu. pose proof (fun fs l => aligned_now pre _ post f _ fs l E Logic.I R) as Al. pose proof (se_union _ _ _ _ S) as U. destruct (fs_body f) as [|fs [y|] l|vs u]; try discriminate N; cbn [add_padding body_members] in *.
      - eexists. split; [reflexivity|]. split; [exact Logic.I|reflexivity].
      - destruct (Al fs l eq_refl) as (x & Ax). rewrite Ax. cbn [of_res obind]. eexists. split; [reflexivity|]. split; [exact Logic.I|]. cbn [body_members]. rewrite map_app. reflexivity.
      - destruct (al_padding _ _ A bits eq_refl). apply U. exact Logic.I. }
    destruct Ab as (b & Eb & Ub & Mb). exists p, (set_body f b), l'. cbn [run_statement]. unfold with_body. cbn [fst snd]. rewrite Eb. cbn [obind]. split; [reflexivity|]. split; [exact Hq|]. split; [|exact Fr].
    constructor; cbn [set_body fs_body fs_path fs_deprecated fs_request]; try apply R; [|exact Ub|apply Dep; intros z Z; discriminate Z|rewrite Mb, <- app_assoc; exact M].
    apply (section_padding _ _ pre f bits b S Eb).
  - destruct (Hmark I).
Qed.
Notation run_all := (run nfc powf sort_sets to_float by_key).
Lemma section_run post : forall pre f p rest, sts = pre ++ post -> ready pre f rest -> Q p -> Forall2 (member_written results path) (attributes post) rest ->
  exists q g, run_all post (p, f) = Done (q, g) /\ Q q /\ ready sts g [].
Proof.
  induction post as [|st post IH]; intros pre f p rest E R Hq F.
  - inversion F. subst rest. exists p, f. rewrite app_nil_r in E. subst pre. auto.
  - destruct (step_accepts pre st post f p rest E R Hq F) as (q & g & rest' & E1 & Hq' & R' & F'). cbn [run]. rewrite E1. cbn [obind]. apply (IH (pre ++ [st]) g q rest'); try assumption. rewrite <- app_assoc. exact E.
Qed.
Lemma constants_one cs ds : Forall2 (constant_for to_float) (constant_statements sts) cs -> Forall2 (constant_written to_float) (constant_statements sts) ds -> cs = ds.
Proof.
  revert cs ds. induction (constant_statements sts) as [|st l IH]; intros cs ds A B; inversion A; inversion B; [reflexivity|]. subst. f_equal; [|apply IH; assumption].
  match goal with X : constant_for _ st ?y, Y : constant_written _ st ?z |- ?y = ?z => destruct X as [t name e v c Hr Hv Hc]; inversion Y as [t' n' e' v' c' Hr' Hv' Hc'] end. subst. pose proof (Hv _ Hv') as W. subst v'. rewrite Hc in Hc'. apply done_inj in Hc'. subst. reflexivity.
Qed.
Lemma extent_one st e e' : ending_for st e -> ending_written st e' -> e = e'.
Proof.
  intros A B. destruct A as [|x n Hl Hn Hm]; inversion B as [|y n' Hl' Hn' Hm']; [reflexivity|]. subst. f_equal. pose proof (Hl _ Hl') as X. apply (f_equal (fun v => match v with VRat q => qint q | _ => None end)) in X. cbn beta iota in X. rewrite !qint_of_N in X. injection X as X. lia.
Qed.
Lemma ready_deprecated g : ready sts g [] -> fs_deprecated g = deprecated.
Proof.
  intro R. pose proof (rd_deprecated _ _ _ R) as X. pose proof Hdep as Hd. destruct response; [exact X|]. unfold marked_deprecated in *. destruct (fs_deprecated g), deprecated; try reflexivity; exfalso.
  - assert (Y : false = true) by (apply Hd, X; reflexivity). discriminate Y.
  - assert (Y : false = true) by (apply X, Hd; reflexivity). discriminate Y.
Qed.
Lemma fields_one fs gs : map member_of_field fs = map member_of_field gs -> map flag fs = map flag gs -> fs = gs.
Proof.
  revert gs. induction fs as [|x fs IH]; intros [|y gs] A B; try discriminate A; [reflexivity|]. cbn [map] in A, B. injection A as A1 A2. injection B as B1 B2. f_equal; [|apply IH; assumption]. destruct x, y; cbn [member_of_field flag] in *; try discriminate A1; injection A1; intros; subst; reflexivity.
Qed.
Lemma variants_one (vs ws : list (ftype cmessage * text)) : map (fun v => MemberData (fst v) (snd v)) vs = map (fun v => MemberData (fst v) (snd v)) ws -> vs = ws.
Proof.
  revert ws. induction vs as [|(a & b) vs IH]; intros [|(c & d) ws] E; try discriminate E; [reflexivity|]. cbn [map fst snd] in E. injection E as -> -> E. f_equal. apply IH. exact E.
Qed.
Lemma section_final g : ready sts g [] -> message_of g pad = Done m.
Proof.
  intro R. pose proof (rd_section _ _ _ R) as S. pose proof (se_ending _ _ _ _ S) as X. pose proof (se_length _ _ _ _ S Hsized) as L. pose proof (se_union _ _ _ _ S) as U. pose proof (ready_deprecated g R) as Ed. pose proof (constants_one _ _ (se_constants _ _ _ _ S) (dc_constants _ _ _ _ _ _ _ D)) as Ec.
  pose proof (rd_members _ _ _ R) as M. rewrite app_nil_r in M. destruct (dc_ending _ _ _ _ _ _ _ D) as (st & Es & W). pose proof (dc_layout _ _ _ _ _ _ _ D) as (La & Lb). pose proof (dc_union _ _ _ _ _ _ _ D) as Du. pose proof (dc_deprecated _ _ _ _ _ _ _ D) as Dd. pose proof (dc_members _ _ _ _ _ _ _ D) as Dm.
  unfold message_of. destruct (body_ending (fs_body g)) as [e|] eqn:Ee; [|cbn [ending_right] in X; rewrite Es in X; discriminate X]. destruct X as (st' & Es' & X). rewrite Es in Es'. injection Es' as <-. pose proof (extent_one _ _ _ X W) as Ex.
  destruct m as [d ex k len cs]. unfold unpadded in La. cbn [c_deprecated c_extent c_kind c_length c_constants] in *. cbn [erase] in La. subst d ex cs len.
  destruct (fs_body g) as [|fs o l|vs u]; cbn [body_ending body_members body_length body_union] in *.
  - discriminate Ee.
  - subst o. destruct k as [gs|bits ws]; [|exfalso; apply U; apply Du; exact Logic.I]. destruct L as ((L1 & L2) & _). cbn [members] in M. destruct Lb as (_ & Lb). pose proof (erased_members _ _ M) as Er. change (map (erase_field erase) gs) with (erased gs) in Lb. rewrite <- Er, <- L2 in Lb. pose proof (fields_one _ _ M (eq_sym Lb)) as Ef. subst gs. rewrite Ed. fold erase. cbn [kind_length]. change (map (erase_field erase) fs) with (erased fs). rewrite <- L1. destruct pad; reflexivity.
  - destruct u as [|l|e' l]; try discriminate Ee. injection Ee as ->. destruct k as [gs|bits ws]; [exfalso; apply Du; apply U; exact Logic.I|]. cbn [members] in M. apply variants_one in M. subst ws bits. rewrite Ed. cbn [kind_length]. fold erase. rewrite union_erase.
    + rewrite L. destruct pad; reflexivity.
    + apply Forall_forall. intros v V. cbn [members] in Dm. destruct (Forall2_In_r _ _ _ (MemberData (fst v) (snd v)) Dm) as (s & _ & Y); [apply in_map_iff; exists v; split; [reflexivity|exact V]|]. inversion Y as [|t r n T]. subst. apply (type_for_sized results path t _ Hsized). apply written_type. exact T.
Qed.
Lemma section_starts : ready [] (FileState path [] (if response then deprecated else false) req BStart) (members (c_kind m)).
Proof.
  constructor; cbn [fs_body fs_path fs_deprecated fs_request body_members app]; [apply section_start|exact Logic.I|reflexivity| |reflexivity|reflexivity]. clear. destruct response; [reflexivity|]. unfold marked_deprecated. split; [intro X; discriminate X|intros []].
Qed.
Lemma section_accepts p : Q p -> exists q g, run_all sts (p, FileState path [] (if response then deprecated else false) req BStart) = Done (q, g) /\ Q q /\ ready sts g [].
Proof. intro Hq. apply (section_run sts [] _ p (members (c_kind m))); [reflexivity|apply section_starts|exact Hq|apply D]. Qed.
End Accept.

Section File.
Context (nfc : text -> text) (powf : Qc -> Qc -> option Qc) (sort_sets : list (list value) -> list (list value)) (to_float : nat -> Qc -> option N).
Context (results : list (key * compiled)) (Q : persistent -> Prop) (by_key : key -> persistent -> out (compiled * persistent)).
Context (Hby : forall k c p, In (k, c) results -> Q p -> exists q, by_key k p = Done (c, q) /\ Q q).
Context (Hsized : forall k port m, In (k, Compiled port (KMessage m)) results -> sized m).
Lemma run_app' a b : forall s, run nfc powf sort_sets to_float by_key (a ++ b) s = obind (run nfc powf sort_sets to_float by_key a s) (run nfc powf sort_sets to_float by_key b).
Proof. induction a as [|st a IH]; intro s; [reflexivity|]. cbn [app run]. destruct (run_statement nfc powf sort_sets to_float by_key st s) as [x| |]; cbn [obind]; [apply IH|reflexivity|reflexivity]. Qed.
Lemma file_accepts k sts port kind p : file_declares to_float results (key_path k) sts kind -> Q p ->
  exists q, compile_file nfc powf sort_sets to_float by_key k (File (Some sts) port) p = Done (Compiled port kind, q) /\ Q q.
Proof.
  intros H Hq. unfold compile_file. cbn [file_content file_port]. destruct H as [sts d m N M D|b a d r m N1 N2 M Nd D1 D2].
  - destruct (section_accepts nfc powf sort_sets to_float results Q by_key Hby Hsized (key_path k) sts d true m false None D N M eq_refl p Hq) as (q & g & E & Hq' & R). cbn iota in E. rewrite E. cbn [obind fst snd]. unfold finish. rewrite (section_final to_float results Hsized (key_path k) sts d true m false None D M eq_refl g R). cbn [obind]. rewrite (rd_request _ _ _ _ _ _ _ _ _ _ R). exists q. auto.
  - destruct (section_accepts nfc powf sort_sets to_float results Q by_key Hby Hsized (key_path k) b d false r false None D1 N1 M eq_refl p Hq) as (q & g & E & Hq' & R). cbn iota in E. rewrite run_app', E. cbn [obind run run_statement fst snd]. unfold handle_marker. rewrite (rd_request _ _ _ _ _ _ _ _ _ _ R), (section_final to_float results Hsized (key_path k) b d false r false None D1 M eq_refl g R). cbn [obind].
    rewrite (rd_path _ _ _ _ _ _ _ _ _ _ R), (ready_deprecated to_float results (key_path k) b d false r false None D1 M eq_refl g R).
    destruct (section_accepts nfc powf sort_sets to_float results Q by_key Hby Hsized (key_path k) a d true m true (Some r) D2 N2 Nd eq_refl q Hq') as (q2 & g2 & E2 & Hq2 & R2). cbn iota in E2. rewrite E2. cbn [obind fst snd]. unfold finish. rewrite (section_final to_float results Hsized (key_path k) a d true m true (Some r) D2 Nd eq_refl g2 R2). cbn [obind]. rewrite (rd_request _ _ _ _ _ _ _ _ _ _ R2). exists q2. auto.
Qed.
End File.

(** * All files *)
Lemma NoDup_map_one {A B} (g : A -> B) l a b : NoDup (map g l) -> In a l -> In b l -> g a = g b -> a = b.
Proof.
  induction l as [|x l IH]; intros N Ia Ib E; [destruct Ia|]. cbn [map] in N. inversion N as [|y ys N1 N2]. subst y ys. destruct Ia as [<-|Ia], Ib as [<-|Ib].
  - reflexivity.
  - destruct N1. rewrite E. apply in_map. exact Ib.
  - destruct N1. rewrite <- E. apply in_map. exact Ia.
  - apply IH; assumption.
Qed.
Section Plan.
Context (nfc : text -> text) (powf : Qc -> Qc -> option Qc) (sort_sets : list (list value) -> list (list value)) (to_float : nat -> Qc -> option N).
Context (files : list (key * file)) (plan : list (key * compiled)) (Hdis : distinct files) (Hplan : right_types to_float files plan).
Notation crash := (fun A : Type => @Crash A).
Notation one := (compile_one nfc powf sort_sets to_float crash).
Lemma files_folded : NoDup (map (fun e => folded (fst e)) files).
Proof.
  pose proof (distinct_separate files Hdis) as N. unfold separate, items in N. cbn [pending done map] in N. rewrite app_nil_r, map_map in N. exact N.
Qed.
Lemma plan_folded : NoDup (map (fun e => folded (fst e)) plan).
Proof.
  destruct Hplan as (P & _). pose proof files_folded as N. rewrite <- (map_map fst folded) in N. rewrite <- (map_map fst folded). apply (Permutation_NoDup (Permutation_map folded P) N).
Qed.
Lemma plan_one k c k' c' : In (k, c) plan -> In (k', c') plan -> same_key k k' -> (k, c) = (k', c').
Proof. intros A B S. apply (NoDup_map_one (fun e => folded (fst e)) plan); try assumption; [apply plan_folded|]. apply folded_same. exact S. Qed.
Lemma files_one k f k' f' : In (k, f) files -> In (k', f') files -> same_key k k' -> (k, f) = (k', f').
Proof. intros A B S. apply (NoDup_map_one (fun e => folded (fst e)) files); try assumption; [apply files_folded|]. apply folded_same. exact S. Qed.
Lemma file_planned k f : In (k, f) files -> exists c, In (k, c) plan.
Proof. intro I. destruct Hplan as (P & _). apply (in_map fst) in I. apply (Permutation_in _ P) in I. apply in_map_iff in I. destruct I as ( (k' & c) & E & I). cbn [fst] in E. subst k'. eauto. Qed.
Lemma declared_sized to_float' results path sts d m : declares to_float' results path sts d true m -> sized m.
Proof. intro D. destruct (dc_layout _ _ _ _ _ _ _ D) as (L & _). unfold sized. rewrite L. unfold unpadded. destruct m as [dd e k l cs]. reflexivity. Qed.
Lemma plan_sized k port m : In (k, Compiled port (KMessage m)) plan -> sized m.
Proof.
  intro I. apply in_split in I. destruct I as (a & b & E). destruct Hplan as (_ & H). destruct (H _ _ _ _ E) as (sts & _ & D). cbn [compiled_kind] in D. inversion D as [sts' d m' N M D'|]. subst. apply (declared_sized _ _ _ _ _ _ D').
Qed.

Definition fine_state (p : persistent) : Prop := separate (items p) /\ incl (done p) plan /\ incl (pending p) files.
Definition stays (p q : persistent) : Prop :=
  incl (done p) (done q) /\ (forall k f, In (k, f) (pending p) -> In (k, f) (pending q) \/ exists c, In (k, c) (done q)) /\ (length (pending q) <= length (pending p))%nat.
Definition available (l : list (key * compiled)) (p : persistent) : Prop := forall k c, In (k, c) l -> In (k, c) (done p) \/ exists f, In (k, f) (pending p).
Lemma stays_refl p : stays p p.
Proof. split; [apply incl_refl|]. split; [auto|lia]. Qed.
Lemma stays_trans p q r : stays p q -> stays q r -> stays p r.
Proof.
  intros (A1 & B1 & C1) (A2 & B2 & C2). split; [intros x X; apply A2, A1, X|]. split; [|lia]. intros k f I. destruct (B1 k f I) as [J|(c & J)]; [apply (B2 k f J)|right; exists c; apply A2, J].
Qed.
Lemma available_stays l p q : incl l plan -> fine_state q -> available l p -> stays p q -> available l q.
Proof.
  intros Il (_ & Q & _) A (S1 & S2 & _) k c I. destruct (A k c I) as [J|(f & J)]; [left; apply S1, J|]. destruct (S2 k f J) as [K|(c' & K)]; [right; eauto|]. left. rewrite (plan_one k c k c' (Il _ I) (Q _ K) (same_refl k)). exact K.
Qed.
Definition provides (n : nat) : Prop := forall pre k c post p, plan = pre ++ (k, c) :: post -> fine_state p -> available (pre ++ [(k, c)]) p -> (length (pending p) <= n)%nat ->
  exists q, type_by_key crash (one n) k p = Done (c, q) /\ fine_state q /\ stays p q.
Lemma one_accepts n pre k c post f p : provides n -> plan = pre ++ (k, c) :: post -> In (k, f) files -> fine_state p -> available pre p -> (length (pending p) <= n)%nat ->
  exists q, one (Datatypes.S n) k f p = Done (c, q) /\ fine_state q /\ stays p q.
Proof.
  intros P E I F A L. cbn [compile_one]. destruct Hplan as (_ & H). destruct (H _ _ _ _ E) as (sts & Is & D). pose proof (files_one _ _ _ _ I Is (same_refl k)) as Ef. injection Ef as ->. assert (Ip : incl pre plan) by (rewrite E; apply incl_appl, incl_refl).
  destruct (file_accepts nfc powf sort_sets to_float pre (fun q => fine_state q /\ stays p q) (type_by_key crash (one n))) with (k := k) (sts := sts) (port := port_id c) (kind := compiled_kind c) (p := p) as (q & Eq & Fq & Sq).
  - intros k' c' p' I' (F' & S'). apply in_split in I'. destruct I' as (a & b & ->). destruct (P a k' c' (b ++ (k, c) :: post) p') as (q & Eq & Fq & Sq).
    + rewrite E, <- app_assoc. reflexivity.
    + exact F'.
    + apply (available_stays _ p p'); [|exact F'| |exact S'].
      * intros x X. apply Ip. apply in_app_or in X. destruct X as [X|[X|[] ] ]; apply in_or_app; [left; exact X|right; left; exact X].
      * intros k1 c1 X. apply A. apply in_app_or in X. destruct X as [X|[X|[] ] ]; apply in_or_app; [left; exact X|right; left; exact X].
    + destruct S' as (_ & _ & S'). lia.
    + exists q. split; [exact Eq|]. split; [exact Fq|apply (stays_trans p p'); assumption].
  - intros k' port m I'. apply (plan_sized k' port). apply Ip, I'.
  - exact D.
  - split; [exact F|apply stays_refl].
  - exists q. rewrite Eq. destruct c. auto.
Qed.
(** a file taken from those pending, compiled and added *)
Lemma taken p p1 k f : fine_state p -> done p1 = done p -> Permutation (pending p) ((k, f) :: pending p1) -> fine_state p1 /\ (forall pre c post, plan = pre ++ (k, c) :: post -> available pre p -> available pre p1).
Proof.
  intros (N & Id & If) Ed Pp. split.
  - split; [|split; [rewrite Ed; exact Id|intros x X; apply If; apply (Permutation_in _ (Permutation_sym Pp)); right; exact X] ].
    assert (It : Permutation (items p) (file_item (k, f) :: items p1)) by (unfold items; rewrite Ed; change (file_item (k, f) :: map file_item (pending p1) ++ map done_item (done p)) with (map file_item ((k, f) :: pending p1) ++ map done_item (done p)); apply Permutation_app_tail, Permutation_map, Pp).
    apply (separate_permutation _ _ It) in N. unfold separate in N. cbn [map] in N. inversion N. assumption.
  - intros pre c post E A k' c' I. destruct (A k' c' I) as [J|(f' & J)]; [left; rewrite Ed; exact J|]. right. exists f'. apply (Permutation_in _ Pp) in J. destruct J as [J|J]; [|exact J]. exfalso. injection J as <- <-. pose proof plan_folded as M. rewrite E, map_app in M. cbn [map fst] in M. apply NoDup_remove_2 in M. apply M. apply in_or_app. left. apply in_map_iff. exists (k, c'). auto.
Qed.
Lemma added p p1 k f c q n : one n k f p1 = Done (c, q) -> fine_state p -> In (k, c) plan -> done p1 = done p -> Permutation (pending p) ((k, f) :: pending p1) -> fine_state q -> stays p1 q ->
  find_key k (done q) = None /\ fine_state (Persistent (pending q) (done q ++ [(k, c)])) /\ stays p (Persistent (pending q) (done q ++ [(k, c)])).
Proof.
  intros E F Ic Ed Pp (_ & Q2 & Q3) (S1 & S2 & S3). pose proof F as (N & F2 & F3). split; [|split].
  - apply (not_twice to_float files k k f p p1 c q (one n) (one_right nfc powf sort_sets to_float files n) E (same_refl k) Pp Ed N).
  - split; [|split; [cbn [done]; apply incl_app; [exact Q2|intros x [<-|[] ]; exact Ic]|exact Q3] ].
    pose proof (add_grows to_float files k k f p p1 c q (one n) (one_right nfc powf sort_sets to_float files n) E (same_refl k) Pp Ed) as (_ & _ & _ & P & _). apply (separate_permutation _ _ (P N) N).
  - split; [|split]; cbn [pending done].
    + intros x X. apply in_or_app. left. apply S1. rewrite Ed. exact X.
    + intros k' f' I. apply (Permutation_in _ Pp) in I. destruct I as [I|I]; [injection I as <- <-; right; exists c; apply in_or_app; right; left; reflexivity|]. destruct (S2 k' f' I) as [J|(c' & J)]; [left; exact J|right; exists c'; apply in_or_app; left; exact J].
    + pose proof (Permutation_length Pp) as L. cbn [length] in L. lia.
Qed.
Lemma provide n : provides n.
Proof.
  induction n as [|n IH]; intros pre k c post p E F A L; unfold type_by_key.
  all: assert (Ic : In (k, c) plan) by (rewrite E; apply in_or_app; right; left; reflexivity).
  all: destruct (find_key k (done p)) as [ (k' & c')|] eqn:Ef.
  1,3: destruct (find_key_some _ _ _ Ef) as (I' & S'); cbn [fst] in S'; pose proof F as (_ & Q & _); pose proof (plan_one _ _ _ _ (Q _ I') Ic S') as Ek; injection Ek as -> ->; rewrite (proj2 (key_exact_eq k k) eq_refl); exists p; split; [reflexivity|]; split; [exact F|apply stays_refl].
  all: assert (Ip : exists f0, In (k, f0) (pending p)) by (destruct (A k c) as [J|J]; [apply in_or_app; right; left; reflexivity| |exact J]; exfalso; apply (proj1 (find_key_none k (done p)) Ef k c J); apply same_refl); destruct Ip as (f0 & Ip).
  - destruct (pending p); [destruct Ip|cbn [length] in L; lia].
  - destruct (find_key k (pending p)) as [ (k1 & f)|] eqn:Ep; [|exfalso; apply (proj1 (find_key_none k (pending p)) Ep k f0 Ip); apply same_refl]. pose proof F as (N & F2 & F3). destruct (find_key_some _ _ _ Ep) as (I1 & S1). cbn [fst] in S1. pose proof (files_one _ _ _ _ (F3 _ I1) (F3 _ Ip) S1) as Ek. injection Ek as -> ->.
    pose proof (remove_key_permutation _ _ _ Ep) as Pp. pose proof (Permutation_length Pp) as Lp. cbn [length] in Lp. set (p1 := Persistent (remove_key k (pending p)) (done p)). destruct (taken p p1 k f0 F eq_refl Pp) as (F1 & A1).
    destruct (one_accepts n pre k c post f0 p1 IH E (F3 _ Ip) F1) as (q & Eq & Fq & Sq); [apply (A1 pre c post E); intros k2 c2 X; apply A; apply in_or_app; left; exact X|cbn [p1 pending]; lia|].
    destruct (added p p1 k f0 c q _ Eq F Ic eq_refl Pp Fq Sq) as (G1 & G2 & G3). rewrite Eq. cbn [obind fst snd]. rewrite G1. eexists. split; [reflexivity|]. split; assumption.
Qed.
Lemma all_accepts n : forall p, fine_state p -> available plan p -> (length (pending p) <= n)%nat -> exists rs, compile_all nfc powf sort_sets to_float crash n p = Done rs /\ fine_state (Persistent [] rs) /\ available plan (Persistent [] rs).
Proof.
  induction n as [|n IH]; intros [pend dn] F A L; cbn [pending] in L; cbn [compile_all pending done]; destruct pend as [|(k & f) r]; try (exists dn; auto; fail); cbn [length] in L; [lia|].
  pose proof F as (N & F2 & F3). cbn [pending done] in F2, F3. assert (If : In (k, f) files) by (apply F3; left; reflexivity). destruct (file_planned k f If) as (c & Ic). pose proof Ic as Is. apply in_split in Is. destruct Is as (pre & post & E).
  destruct (taken (Persistent ((k, f) :: r) dn) (Persistent r dn) k f F eq_refl (Permutation_refl _)) as (F1 & A1).
  destruct (one_accepts n pre k c post f (Persistent r dn) (provide n) E If F1) as (q & Eq & Fq & Sq); [apply (A1 pre c post E); intros k2 c2 X; apply A; rewrite E; apply in_or_app; left; exact X|cbn [pending]; lia|].
  destruct (added (Persistent ((k, f) :: r) dn) (Persistent r dn) k f c q _ Eq F Ic eq_refl (Permutation_refl _) Fq Sq) as (G1 & G2 & G3).
  cbn [compile_one] in Eq |- *. rewrite Eq. cbn [obind fst snd]. rewrite G1. apply IH; [exact G2|apply (available_stays plan _ _ (incl_refl _) G2 A G3)|]. destruct Sq as (_ & _ & Sq). cbn [pending] in *. lia.
Qed.
Lemma plan_accepted : exists rs, compile nfc powf sort_sets to_float files = Done rs /\ Permutation rs plan.
Proof.
  unfold compile, compile_with. destruct (all_accepts (length files) (Persistent files [])) as (rs & E & (N & F2 & _) & A).
  - split; [apply distinct_separate; exact Hdis|]. split; [intros x []|apply incl_refl].
  - intros k c I. right. destruct Hplan as (P & _). apply (in_map fst) in I. apply (Permutation_in _ (Permutation_sym P)) in I. apply in_map_iff in I. destruct I as ( (k' & f) & Ek & I). cbn [fst] in Ek. subst k'. exists f. exact I.
  - cbn [pending]. lia.
  - exists rs. split; [exact E|]. unfold separate, items in N. cbn [pending done map app] in *. rewrite map_map in N. apply NoDup_Permutation; [apply (NoDup_map_inv _ _ N)|apply (NoDup_map_inv _ _ plan_folded)|]. intros (k & c). split; [apply F2|]. intro I. destruct (A k c I) as [J|(f & [])]. exact J.
Qed.
End Plan.

(** A way to show that all lengths of a set fit into 64 bits, for examples *)
Fixpoint bound (o : operator) : N :=
  match o with
  | Leaf l => fold_right N.max 0 l
  | Padding c a => bound c + a
  | Concatenate cs => fold_right (fun c n => bound c + n) 0 cs
  | Repeat c n | RangeRepeat c n => n * bound c
  | Union cs => fold_right (fun c n => N.max (bound c) n) 0 cs
  end.
Fixpoint ascending (l : list N) : bool := match l with [] => true | x :: r => forallb (fun y => x <? y) r && ascending r end.
Definition nonempty {A} (l : list A) : bool := match l with [] => false | _ => true end.
Fixpoint bls_okb (o : operator) : bool :=
  (bound o <? 2 ^ 64) &&
  match o with
  | Leaf l => ascending l && nonempty l
  | Padding c a => bls_okb c && (0 <? a) && (a <? 2 ^ 32)
  | Concatenate cs | Union cs => nonempty cs && forallb bls_okb cs
  | Repeat c n | RangeRepeat c n => bls_okb c && (n <? 2 ^ 64)
  end.
Lemma bound_right : forall o v, den o v -> v <= bound o.
Proof.
  apply (op_rect' (fun o => forall v, den o v -> v <= bound o)).
  - intros l v I. cbn [den bound] in *. induction l as [|x l IH]; [destruct I|]. cbn [fold_right]. destruct I as [<-|I]; [lia|]. specialize (IH I). lia.
  - intros c a IH v (u & D & L & U & _). cbn [bound]. specialize (IH u D). lia.
  - intros cs IH v D. apply den_concat in D as (vs & F & ->). cbn [bound]. induction F as [|c x cs vs D F I]; [reflexivity|]. inversion IH as [|? ? A B]; subst. rewrite total_cons. cbn [fold_right]. specialize (A x D). specialize (I B). lia.
  - intros c n IH v (vs & L & F & ->). cbn [bound]. assert (T : total vs <= bound c * N.of_nat (length vs)) by (apply total_bound; eapply Forall_impl; [|exact F]; exact IH). lia.
  - intros c n IH v (vs & L & F & ->). cbn [bound]. assert (T : total vs <= bound c * N.of_nat (length vs)) by (apply total_bound; eapply Forall_impl; [|exact F]; exact IH). nia.
  - intros cs IH v D. apply den_union in D. cbn [bound]. induction D as [c cs D|c cs D I]; inversion IH as [|? ? A B]; subst; cbn [fold_right]; [specialize (A v D)|specialize (I B)]; lia.
Qed.
Lemma ascending_right l : ascending l = true -> is_set l.
Proof.
  induction l as [|x l IH]; intro H; [constructor|]. cbn [ascending] in H. apply andb_true_iff in H as (A & B). constructor; [exact (IH B)|]. rewrite forallb_forall in A. apply Forall_forall. intros y I. apply N.ltb_lt, A, I.
Qed.
Lemma nonempty_right {A} (l : list A) : nonempty l = true -> l <> [].
Proof. destruct l; [intro E; discriminate E|intros _ E; discriminate E]. Qed.
Lemma bls_okb_right : forall o, bls_okb o = true -> bls_ok o.
Proof.
  assert (B : forall o, (bound o <? 2 ^ 64) = true -> forall v, den o v -> v < 2 ^ 64) by (intros o H v D; apply N.ltb_lt in H; pose proof (bound_right o v D); lia).
  apply (op_rect' (fun o => bls_okb o = true -> bls_ok o)).
  - intros l H. cbn [bls_okb] in H. apply andb_true_iff in H as (H & K). apply andb_true_iff in K as (K & L). split; [exact (B (Leaf l) H)|]. split; [apply ascending_right, K|apply nonempty_right, L].
  - intros c a IH H. cbn [bls_okb] in H. apply andb_true_iff in H as (H & K). apply andb_true_iff in K as (K & L). apply andb_true_iff in K as (K & M). split; [exact (B (Padding c a) H)|]. split; [exact (IH K)|]. split; apply N.ltb_lt; assumption.
  - intros cs IH H. cbn [bls_okb] in H. apply andb_true_iff in H as (H & K). apply andb_true_iff in K as (K & L). split; [exact (B (Concatenate cs) H)|]. split; [apply nonempty_right, K|]. apply all_iff. apply Forall_mp with (P := fun o => bls_okb o = true); [exact IH|]. apply Forall_forall. rewrite forallb_forall in L. exact L.
  - intros c n IH H. cbn [bls_okb] in H. apply andb_true_iff in H as (H & K). apply andb_true_iff in K as (K & L). split; [exact (B (Repeat c n) H)|]. split; [exact (IH K)|]. apply N.ltb_lt, L.
  - intros c n IH H. cbn [bls_okb] in H. apply andb_true_iff in H as (H & K). apply andb_true_iff in K as (K & L). split; [exact (B (RangeRepeat c n) H)|]. split; [exact (IH K)|]. apply N.ltb_lt, L.
  - intros cs IH H. cbn [bls_okb] in H. apply andb_true_iff in H as (H & K). apply andb_true_iff in K as (K & L). split; [exact (B (Union cs) H)|]. split; [apply nonempty_right, K|]. apply all_iff. apply Forall_mp with (P := fun o => bls_okb o = true); [exact IH|]. apply Forall_forall. rewrite forallb_forall in L. exact L.
Qed.
