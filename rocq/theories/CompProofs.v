(** Proofs about the compiler of DSDL files. *)
From Coq Require Import QArith Qcanon Lia ZifyBool ZifyN ZifyNat Permutation.
From Verif Require Import Base BlsModel BlsSpec BlsProofs GenModel ExprModel ExprSpec ExprProofs PkgModel PkgSpec PkgProofs CompModel CompSpec.
Open Scope list_scope.
Open Scope N_scope.
Ltac Zify.zify_post_hook ::= Z.div_mod_to_equations.

Lemma obind_done {A B} (x : out A) (f : A -> out B) b : obind x f = Done b -> exists a, x = Done a /\ f a = Done b.
Proof. destruct x; cbn [obind]; intro H; try discriminate H. eauto. Qed.
Lemma of_res_done {A} (x : res A) a : of_res x = Done a -> x = Ok a.
Proof. destruct x; cbn [of_res]; intro H; [injection H as ->; reflexivity|discriminate H]. Qed.

(** * Evaluation and the state *)

Section Eval.
Context (nfc : text -> text) (powf : Qc -> Qc -> option Qc) (sort_sets : list (list value) -> list (list value)).
Context (S : Type) (offset : S -> operator * S) (constants : S -> list (text * value)) (lookup : key -> S -> out (option (operator * list (text * value)) * S)).
Context (P : S -> Prop).
Context (Hoffset : forall s, P s -> P (snd (offset s))).
Context (Hlookup : forall k s m s', P s -> lookup k s = Done (m, s') -> P s').
Notation evaluate := (eval nfc powf sort_sets S offset constants lookup).
Definition kept {A} (x : out (A * S)) : Prop := match x with Done p => P (snd p) | _ => True end.
Lemma kept_bind {A B} (x : out (A * S)) (f : A -> S -> out (B * S)) : kept x -> (forall a s, P s -> kept (f a s)) -> kept (sbind S x f).
Proof. intros H F. unfold kept, sbind. destruct x as [ (a & s)| |]; try exact Logic.I. apply F. exact H. Qed.
Lemma kept_pure {A} s (x : out A) : P s -> kept (pure S s x).
Proof. intro H. unfold pure. destruct x; try exact Logic.I. exact H. Qed.
Lemma kept_lookup k s : P s -> kept (lookup k s).
Proof. intro H. unfold kept. destruct (lookup k s) as [ (m & s')| |] eqn:E; try exact Logic.I. apply (Hlookup k s m s' H E). Qed.
Lemma kept_attribute v name s : P s -> kept (attribute sort_sets S lookup v name s).
Proof.
  intro H. unfold attribute. destruct v as [q|t|l|o|b|t]; try exact Logic.I.
  - destruct (text_eqb name name_min); [apply kept_pure; exact H|]. destruct (text_eqb name name_max); [apply kept_pure; exact H|]. destruct (text_eqb name name_count); [exact H|exact Logic.I].
  - destruct (text_eqb name name_min); [apply kept_pure; exact H|]. destruct (text_eqb name name_max); [apply kept_pure; exact H|]. destruct (text_eqb name name_count); [apply kept_pure; exact H|exact Logic.I].
  - destruct (text_eqb name name_bit_length).
    + assert (L : forall x, kept (scalar_length S lookup x s)).
      { intros [k|p|bits]; [|exact H|exact H]. cbn [scalar_length]. apply kept_bind; [apply kept_lookup; exact H|]. intros [ (o & cs)|] s' H'; [exact H'|exact Logic.I]. }
      apply kept_bind; [|intros o s' H'; exact H']. destruct t as [x|x n|x n]; cbn [dtype_length]; [apply L| |]; (apply kept_bind; [apply L|]; intros o s' H'; exact H').
    + destruct t as [ [k|p|bits]|x n|x n]; try exact Logic.I. apply kept_bind; [apply kept_lookup; exact H|]. intros [ (o & cs)|] s' H'; [apply kept_pure; exact H'|exact Logic.I].
Qed.
Lemma kept_eval : forall e s, P s -> kept (evaluate e s).
Proof.
  fix IH 1. intros [q|t|b|es|t|t k n|name|u e|e name|op a b] s Hs; try exact Hs.
  - change (kept (elements nfc powf sort_sets S offset constants lookup es [] s)). generalize (@nil value). revert s Hs. induction es as [|e es IHes]; intros s Hs acc; [exact Hs|]. cbn [elements]. apply kept_bind; [apply IH; exact Hs|]. intros v s' Hs'. unfold kept. destruct (insert acc v); try exact Logic.I. apply IHes. exact Hs'.
  - cbn [eval]. apply kept_bind; [apply IH; exact Hs|]. intros v s' Hs'. destruct (array_length v); try exact Logic.I. cbn [obind]. destruct (array_type t k a); try exact Logic.I. exact Hs'.
  - cbn [eval]. destruct (text_eqb name name_offset); [|apply kept_pure; exact Hs]. pose proof (Hoffset s Hs) as H. destruct (offset s) as (o & s'). exact H.
  - cbn [eval]. apply kept_bind; [apply IH; exact Hs|]. intros v s' Hs'. apply kept_pure. exact Hs'.
  - cbn [eval]. apply kept_bind; [apply IH; exact Hs|]. intros v s' Hs'. apply kept_attribute. exact Hs'.
  - cbn [eval]. apply kept_bind; [apply IH; exact Hs|]. intros v s' Hs'. apply kept_bind; [apply IH; exact Hs'|]. intros w s2 Hs2. apply kept_pure. exact Hs2.
Qed.
Lemma eval_inv e s v s' : P s -> evaluate e s = Done (v, s') -> P s'.
Proof. intros H E. pose proof (kept_eval e s H) as K. rewrite E in K. exact K. Qed.

(** ** Two compilers that find the same types *)
Context (lookup2 : key -> S -> out (option (operator * list (text * value)) * S)).
Context (Hsame : forall k s, P s -> lookup k s = lookup2 k s).
Notation evaluate2 := (eval nfc powf sort_sets S offset constants lookup2).
Lemma same_bind {A B} (x y : out (A * S)) (f g : A -> S -> out (B * S)) : kept x -> x = y -> (forall a s, P s -> f a s = g a s) -> sbind S x f = sbind S y g.
Proof. intros K <- F. destruct x as [ (a & s)| |]; try reflexivity. apply F. exact K. Qed.
Lemma same_attribute v name s : P s -> attribute sort_sets S lookup v name s = attribute sort_sets S lookup2 v name s.
Proof.
  intro H. destruct v as [q|t|l|o|b|t]; try reflexivity. cbn [attribute]. destruct (text_eqb name name_bit_length).
  - assert (L : forall x, scalar_length S lookup x s = scalar_length S lookup2 x s).
    { intros [k|p|bits]; try reflexivity. cbn [scalar_length]. rewrite (Hsame k s H). reflexivity. }
    destruct t as [x|x n|x n]; cbn [dtype_length]; rewrite L; reflexivity.
  - destruct t as [ [k|p|bits]|x n|x n]; try reflexivity. rewrite (Hsame k s H). reflexivity.
Qed.
Lemma eval_same : forall e s, P s -> evaluate e s = evaluate2 e s.
Proof.
  fix IH 1. intros [q|t|b|es|t|t k n|name|u e|e name|op a b] s Hs; try reflexivity.
  - change (elements nfc powf sort_sets S offset constants lookup es [] s = elements nfc powf sort_sets S offset constants lookup2 es [] s). generalize (@nil value). revert s Hs. induction es as [|e es IHes]; intros s Hs acc; [reflexivity|]. cbn [elements]. apply same_bind; [apply kept_eval; exact Hs|apply IH; exact Hs|]. intros v s' Hs'. destruct (insert acc v); try reflexivity. apply IHes. exact Hs'.
  - cbn [eval]. apply same_bind; [apply kept_eval; exact Hs|apply IH; exact Hs|]. reflexivity.
  - cbn [eval]. apply same_bind; [apply kept_eval; exact Hs|apply IH; exact Hs|]. reflexivity.
  - cbn [eval]. apply same_bind; [apply kept_eval; exact Hs|apply IH; exact Hs|]. intros v s' Hs'. apply same_attribute. exact Hs'.
  - cbn [eval]. apply same_bind; [apply kept_eval; exact Hs|apply IH; exact Hs|]. intros v s' Hs'. apply same_bind; [apply kept_eval; exact Hs'|apply IH; exact Hs'|]. reflexivity.
Qed.
End Eval.

(** * Statements *)

(** What an expression can do to the file: settle the length of a union *)
Definition touched (f g : file_state) : Prop := g = f \/ exists vs, fs_body f = BUnion vs UCollecting /\ g = set_body f (BUnion vs (UUsed (make_union_length vs))).
Lemma touched_refl f : touched f f.
Proof. left. reflexivity. Qed.
Lemma touched_trans f g h : touched f g -> touched g h -> touched f h.
Proof.
  intros [->|(vs & E & ->)] H; [exact H|]. destruct H as [->|(vs' & E' & _)]; [right; eauto|]. cbn [set_body fs_body] in E'. discriminate E'.
Qed.
Lemma touched_fields f g : touched f g -> fs_path g = fs_path f /\ fs_constants g = fs_constants f /\ fs_deprecated g = fs_deprecated f /\ fs_request g = fs_request f.
Proof. intros [->|(vs & E & ->)]; cbn [set_body fs_path fs_constants fs_deprecated fs_request]; repeat split. Qed.

(** What a statement does to the file, without what expressions see *)
Section Steps.
Context (to_float : nat -> Qc -> option N) (results : list (key * compiled)).
Inductive fstep : statement -> file_state -> file_state -> Prop :=
| fs_union f b : handle_union (fs_body f) = Done b -> fstep (SDirective DUnion None) f (set_body f b)
| fs_extent e n f g b : touched f g -> length_is e n -> n < 2 ^ 64 -> n mod 8 = 0 -> apply_extent (Delimited n) (fs_body g) = Done b -> fstep (SDirective DExtent (Some e)) f (set_body g b)
| fs_sealed f b : apply_extent Sealed (fs_body f) = Done b -> fstep (SDirective DSealed None) f (set_body f b)
| fs_deprecate f g : handle_deprecated f = Done g -> fstep (SDirective DDeprecated None) f g
| fs_assert e f g : touched f g -> (forall w, denotes e w -> w = VBool true) -> fstep (SDirective DAssert (Some e)) f g
| fs_print e f g : touched f g -> fstep (SDirective DPrint e) f g
| fs_constant t name e v c f g : touched f g -> existsb (fun c => text_eqb (fst c) name) (fs_constants f) = false -> ~ reserved name -> (forall w, denotes e w -> v = w) ->
    check_constant to_float t v = Done c ->
    fstep (SConstant t name e) f (FileState (fs_path g) (fs_constants g ++ [(name, Constant t v c)]) (fs_deprecated g) (fs_request g) (fs_body g))
| fs_field t r name f g b : touched f g -> type_for results (fs_path f) t r -> check_deprecated g r = true -> add_field r name (fs_body g) = Done b -> fstep (SField t name) f (set_body g b)
| fs_padding bits f b : add_padding bits (fs_body f) = Done b -> fstep (SPadding bits) f (set_body f b)
| fs_marker f g : handle_marker f = Done g -> fstep SMarker f g.
Inductive fruns : list statement -> file_state -> file_state -> Prop :=
| fr_nil f : fruns [] f f
| fr_snoc sts st f g h : fruns sts f g -> fstep st g h -> fruns (sts ++ [st]) f h.
Lemma fr_cons st sts f g h : fstep st f g -> fruns sts g h -> fruns (st :: sts) f h.
Proof.
  intros H R. revert f H. induction R as [g|sts st' g g' h R IH S]; intros f H; [apply (fr_snoc [] st f f g); [constructor|exact H]|].
  change (st :: sts ++ [st']) with ((st :: sts) ++ [st']). apply (fr_snoc _ _ _ g'); [apply IH; exact H|exact S].
Qed.
End Steps.
Lemma scalar_more r r' path s x : incl r r' -> scalar_for r path s x -> scalar_for r' path s x.
Proof. intros I H. destruct H as [p|bits|k port m Hk Hi|name a b port m k Hi]; [constructor|constructor|apply (sf_full r' path k port m Hk); apply I; exact Hi|apply (sf_local r' path name a b port m); apply I; exact Hi]. Qed.
Lemma type_more r r' path t x : incl r r' -> type_for r path t x -> type_for r' path t x.
Proof. intros I H. destruct H as [s x H|s x e n H L B|s x e n H L B|s x e n H L B]; constructor; try assumption; apply (scalar_more r); assumption. Qed.
Lemma member_more r r' path st x : incl r r' -> member_for r path st x -> member_for r' path st x.
Proof. intros I H. destruct H as [bits|t x name H]; constructor. apply (type_more r); assumption. Qed.
Lemma fstep_more tf r r' st f g : incl r r' -> fstep tf r st f g -> fstep tf r' st f g.
Proof. intros I H. destruct H; try (econstructor; eassumption). apply (fs_field tf r' t r0 name f g); try assumption. apply (type_more r); assumption. Qed.
Lemma fruns_more tf r r' sts f g : incl r r' -> fruns tf r sts f g -> fruns tf r' sts f g.
Proof. intros I H. induction H as [f|sts st f g h H IH S]; [constructor|]. apply (fr_snoc tf r' sts st f g h); [exact IH|apply (fstep_more tf r); assumption]. Qed.

Section Run.
Context (nfc : text -> text) (powf : Qc -> Qc -> option Qc) (sort_sets : list (list value) -> list (list value)) (to_float : nat -> Qc -> option N).
Context (R : persistent -> persistent -> Prop) (Rrefl : forall p, R p p) (Rtrans : forall p q r, R p q -> R q r -> R p r).
Context (Rincl : forall p q, R p q -> incl (done p) (done q)).
Context (by_key : key -> persistent -> out (compiled * persistent)).
Context (Hby : forall k p c q, by_key k p = Done (c, q) -> R p q /\ In (k, c) (done q)).
Notation evaluate := (evaluate nfc powf sort_sets by_key).

Lemma lookup_type_right k s c s' : lookup_type by_key k s = Done (c, s') -> snd s' = snd s /\ R (fst s) (fst s') /\ In (canonical (snd s) k, c) (done (fst s')).
Proof.
  unfold lookup_type. intro H. apply obind_done in H. destruct H as ( (c' & q) & H & E). injection E as <- <-. cbn [fst snd]. apply Hby in H. tauto.
Qed.
Lemma evaluate_right e s v s' : evaluate e s = Done (v, s') -> R (fst s) (fst s') /\ touched (snd s) (snd s') /\ forall w, denotes e w -> v = w.
Proof.
  intro H. assert (I : R (fst s) (fst s') /\ touched (snd s) (snd s')).
  { refine (eval_inv nfc powf sort_sets state offset constants_of (lookup by_key) (fun x => R (fst s) (fst x) /\ touched (snd s) (snd x)) _ _ e s v s' (conj (Rrefl _) (touched_refl _)) H).
    - intros x (A & B). unfold offset. destruct (fs_body (snd x)) as [|fs e' l|vs [|l|e' l] ] eqn:Eb; try (split; assumption). cbn [snd fst]. split; [exact A|]. apply (touched_trans _ _ _ B). right. exists vs. split; [exact Eb|reflexivity].
    - intros k x m x' (A & B) L. unfold lookup in L. apply obind_done in L. destruct L as ( (c & y) & L & E). apply done_inj in E. injection E as _ <-. cbn [snd]. apply lookup_type_right in L. destruct L as (L1 & L2 & _). split; [apply (Rtrans _ _ _ A L2)|rewrite L1; exact B]. }
  destruct I as (A & B). split; [exact A|]. split; [exact B|]. intros w W. unfold CompModel.evaluate in H. rewrite (denotes_right nfc powf sort_sets state offset constants_of (lookup by_key) e w W s) in H. apply done_inj in H. injection H as <- _. reflexivity.
Qed.
Lemma resolve_scalar_right t s r s' : resolve_scalar by_key t s = Done (r, s') -> R (fst s) (fst s') /\ snd s' = snd s /\ scalar_for (done (fst s')) (fs_path (snd s)) t r.
Proof.
  destruct t as [k|p|bits]; cbn [resolve_scalar]; intro H.
  - apply obind_done in H. destruct H as ( (c & y) & H & E). cbn [fst snd] in E. destruct c as [port [m|a b] ]; cbn [compiled_kind] in E; [|discriminate E]. injection E as <- <-. apply lookup_type_right in H. destruct H as (H1 & H2 & H3). split; [exact H2|]. split; [exact H1|]. unfold canonical in *. destruct (key_path k) as [|w ws] eqn:Ek.
    + destruct k as [path name a b]. cbn [key_path] in Ek. subst path. cbn [key_name key_major key_minor] in *. apply (sf_local _ _ name a b port m). exact H3.
    + apply (sf_full _ _ k port m); [rewrite Ek; intro E; discriminate E|exact H3].
  - injection H as <- <-. split; [apply Rrefl|]. split; [reflexivity|constructor].
  - injection H as <- <-. split; [apply Rrefl|]. split; [reflexivity|constructor].
Qed.
Lemma array_length_right v n : array_length v = Done n -> v = VRat (integer (Z.of_N n)) /\ n < 2 ^ 64.
Proof.
  destruct v as [q|t|l|o|b|t]; cbn [array_length]; try (intro H; discriminate H). destruct (qint q) as [z|] eqn:Eq; [|intro H; discriminate H].
  destruct (z <? 0)%Z eqn:E0; [intro H; discriminate H|]. destruct (z <? 2 ^ 64)%Z eqn:E1; [|intro H; discriminate H]. intro H. apply done_inj in H. subst n.
  apply qint_right in Eq. subst q. apply Z.ltb_ge in E0. apply Z.ltb_lt in E1. split; [rewrite Z2N.id by exact E0; reflexivity|]. apply N2Z.inj_lt. rewrite Z2N.id by exact E0. exact E1.
Qed.
Lemma field_type_right t s d s1 r s2 : convert_type nfc powf sort_sets by_key t s = Done (d, s1) -> resolve by_key d s1 = Done (r, s2) ->
  R (fst s) (fst s2) /\ touched (snd s) (snd s2) /\ type_for (done (fst s2)) (fs_path (snd s)) t r.
Proof.
  intros H1 H2. destruct t as [x|x k n]; cbn [convert_type] in H1.
  - injection H1 as <- <-. cbn [resolve] in H2. apply obind_done in H2. destruct H2 as ( (y & z) & H2 & E). injection E as <- <-. cbn [fst snd]. apply resolve_scalar_right in H2. destruct H2 as (A & B & C). split; [exact A|]. split; [rewrite B; apply touched_refl|]. constructor. exact C.
  - apply obind_done in H1. destruct H1 as ( (v & s') & H1 & E). apply obind_done in E. destruct E as (m & Em & E). apply obind_done in E. destruct E as (d' & Ed & E). apply done_inj in E. cbn [fst snd] in *. injection E as <- <-. apply array_length_right in Em. destruct Em as (Ev & Bm). apply evaluate_right in H1. destruct H1 as (A & B & C). subst v.
    assert (L : length_is n m) by (intros w W; symmetry; apply C; exact W). pose proof (touched_fields _ _ B) as (P & _).
    destruct k; cbn [array_type] in Ed.
    + apply done_inj in Ed. subst d'. cbn [resolve] in H2. apply obind_done in H2. destruct H2 as ( (y & z) & H2 & E). injection E as <- <-. cbn [fst snd]. apply resolve_scalar_right in H2. destruct H2 as (A2 & B2 & C2). rewrite P in C2. split; [apply (Rtrans _ _ _ A A2)|]. split; [rewrite B2; exact B|]. constructor; assumption.
    + apply done_inj in Ed. subst d'. cbn [resolve] in H2. apply obind_done in H2. destruct H2 as ( (y & z) & H2 & E). injection E as <- <-. cbn [fst snd]. apply resolve_scalar_right in H2. destruct H2 as (A2 & B2 & C2). rewrite P in C2. split; [apply (Rtrans _ _ _ A A2)|]. split; [rewrite B2; exact B|]. constructor; assumption.
    + destruct (0 <? m) eqn:E0; [|discriminate Ed]. apply N.ltb_lt in E0. apply done_inj in Ed. subst d'. cbn [resolve] in H2. apply obind_done in H2. destruct H2 as ( (y & z) & H2 & E). injection E as <- <-. cbn [fst snd]. apply resolve_scalar_right in H2. destruct H2 as (A2 & B2 & C2). rewrite P in C2. split; [apply (Rtrans _ _ _ A A2)|]. split; [rewrite B2; exact B|]. constructor; [exact C2| |]; replace (m - 1 + 1) with m by lia; assumption.
Qed.
Lemma statement_right st s s' : run_statement nfc powf sort_sets to_float by_key st s = Done s' -> R (fst s) (fst s') /\ fstep to_float (done (fst s')) st (snd s) (snd s').
Proof.
  intro H. destruct st as [d e|t name e|t name|bits|]; cbn [run_statement] in H.
  - destruct d, e as [e|]; cbn [evaluate_directive] in H; try discriminate H.
    + unfold with_body in H. apply obind_done in H. destruct H as (b & H & E). apply done_inj in E. subst s'. cbn [fst snd]. split; [apply Rrefl|]. constructor. exact H.
    + apply obind_done in H. destruct H as ( (v & s1) & H & E). cbn [fst snd] in E. apply evaluate_right in H. destruct H as (A & B & C).
      destruct v as [q|t|l|o|b|t]; try discriminate E. destruct (qint q) as [z|] eqn:Eq; [|discriminate E]. destruct ((0 <=? z)%Z && (z <? 2 ^ 64)%Z && (z mod 8 =? 0)%Z) eqn:Ez; [|discriminate E].
      apply andb_prop in Ez. destruct Ez as (Ez & E3). apply andb_prop in Ez. destruct Ez as (E1 & E2). apply Z.leb_le in E1. apply Z.ltb_lt in E2. apply Z.eqb_eq in E3.
      unfold with_body in E. apply obind_done in E. destruct E as (b & Eb & E). apply done_inj in E. subst s'. cbn [fst snd]. split; [exact A|]. apply qint_right in Eq.
      apply (fs_extent _ _ e (Z.to_N z) (snd s) (snd s1) b B); [| | |exact Eb].
      * intros w W. rewrite Z2N.id by exact E1. rewrite <- (C w W). f_equal. exact Eq.
      * apply N2Z.inj_lt. rewrite Z2N.id by exact E1. exact E2.
      * apply N2Z.inj. rewrite N2Z.inj_mod, Z2N.id by exact E1. exact E3.
    + unfold with_body in H. apply obind_done in H. destruct H as (b & H & E). apply done_inj in E. subst s'. cbn [fst snd]. split; [apply Rrefl|]. constructor. exact H.
    + apply obind_done in H. destruct H as (g & H & E). apply done_inj in E. subst s'. cbn [fst snd]. split; [apply Rrefl|]. constructor. exact H.
    + apply obind_done in H. destruct H as ( (v & s1) & H & E). cbn [fst snd] in E. apply evaluate_right in H. destruct H as (A & B & C).
      destruct v as [q|t|l|o|b|t]; try discriminate E. destruct b; [|discriminate E]. apply done_inj in E. subst s'. split; [exact A|]. constructor; [exact B|]. intros w W. symmetry. apply C. exact W.
    + apply obind_done in H. destruct H as ( (v & s1) & H & E). cbn [fst snd] in E. apply done_inj in E. subst s'. apply evaluate_right in H. destruct H as (A & B & C). split; [exact A|]. constructor. exact B.
    + apply done_inj in H. subst s'. split; [apply Rrefl|]. constructor. apply touched_refl.
  - unfold evaluate_constant in H. destruct (existsb _ _) eqn:Ex; [discriminate H|]. destruct (is_reserved_keyword name) eqn:Er; [discriminate H|].
    apply obind_done in H. destruct H as ( (v & s1) & H & E). cbn [fst snd] in E. apply obind_done in E. destruct E as (c & Ec & E). apply done_inj in E. subst s'. cbn [fst snd]. apply evaluate_right in H. destruct H as (A & B & C). split; [exact A|].
    apply fs_constant; try assumption. intro X. apply reserved_right in X. rewrite X in Er. discriminate Er.
  - apply obind_done in H. destruct H as ( (d & s1) & H1 & H). apply obind_done in H. destruct H as ( (r & s2) & H2 & H). cbn [fst snd] in *. destruct (check_deprecated (snd s2) r) eqn:Ed; [|discriminate H].
    unfold with_body in H. apply obind_done in H. destruct H as (b & Eb & E). apply done_inj in E. subst s'. cbn [fst snd]. destruct (field_type_right t s d s1 r s2 H1 H2) as (A & B & C). split; [exact A|]. apply (fs_field _ _ t r name (snd s) (snd s2)); assumption.
  - unfold with_body in H. apply obind_done in H. destruct H as (b & H & E). apply done_inj in E. subst s'. cbn [fst snd]. split; [apply Rrefl|]. constructor. exact H.
  - apply obind_done in H. destruct H as (g & H & E). apply done_inj in E. subst s'. cbn [fst snd]. split; [apply Rrefl|]. constructor. exact H.
Qed.
Lemma run_right sts : forall s s', run nfc powf sort_sets to_float by_key sts s = Done s' -> R (fst s) (fst s') /\ fruns to_float (done (fst s')) sts (snd s) (snd s').
Proof.
  induction sts as [|st sts IH]; intros s s' H; cbn [run] in H.
  - apply done_inj in H. subst s'. split; [apply Rrefl|constructor].
  - apply obind_done in H. destruct H as (s1 & H1 & H2). apply statement_right in H1. apply IH in H2. destruct H1 as (A1 & B1), H2 as (A2 & B2). split; [apply (Rtrans _ _ _ A1 A2)|]. apply (fr_cons _ _ _ _ _ (snd s1)); [|exact B2]. apply (fstep_more _ (done (fst s1))); [apply Rincl; exact A2|exact B1].
Qed.
Definition init (path : list text) : file_state := FileState path [] false None BStart.
Lemma compile_file_right k f p c q : compile_file nfc powf sort_sets to_float by_key k f p = Done (c, q) ->
  R p q /\ exists sts g, file_content f = Some sts /\ fruns to_float (done q) sts (init (key_path k)) g /\ finish g (file_port f) = Done c.
Proof.
  unfold compile_file. intro H. destruct (file_content f) as [sts|]; [|discriminate H]. apply obind_done in H. destruct H as (s & H1 & H2). apply obind_done in H2. destruct H2 as (c' & H2 & E). apply done_inj in E. injection E as <- <-.
  apply run_right in H1. destruct H1 as (A & B). split; [exact A|]. exists sts, (snd s). split; [reflexivity|]. split; [exact B|exact H2].
Qed.
End Run.

(** * Two ways to find types that agree *)

Section Same.
Context (nfc : text -> text) (powf : Qc -> Qc -> option Qc) (sort_sets : list (list value) -> list (list value)) (to_float : nat -> Qc -> option N).
Context (Q : persistent -> Prop) (by1 by2 : key -> persistent -> out (compiled * persistent)).
Context (Hkeep : forall k p c q, Q p -> by1 k p = Done (c, q) -> Q q) (Hsame : forall k p, Q p -> by1 k p = by2 k p).
Let P (s : state) : Prop := Q (fst s).
Lemma offset_keeps s : P s -> P (snd (offset s)).
Proof. unfold offset, P. destruct (fs_body (snd s)) as [|fs e l|vs [|l|e l] ]; intro H; exact H. Qed.
Lemma lookup_type_keeps k s c s' : P s -> lookup_type by1 k s = Done (c, s') -> P s'.
Proof. unfold lookup_type, P. intros H L. apply obind_done in L. destruct L as ( (c' & q) & L & E). apply done_inj in E. injection E as _ <-. apply (Hkeep _ _ _ _ H L). Qed.
Lemma lookup_keeps k s m s' : P s -> lookup by1 k s = Done (m, s') -> P s'.
Proof. unfold lookup. intros H L. apply obind_done in L. destruct L as ( (c' & q) & L & E). apply done_inj in E. injection E as _ <-. apply (lookup_type_keeps _ _ _ _ H L). Qed.
Lemma lookup_type_same k s : P s -> lookup_type by1 k s = lookup_type by2 k s.
Proof. intro H. unfold lookup_type. rewrite (Hsame _ _ H). reflexivity. Qed.
Lemma evaluate_keeps e s v s' : P s -> evaluate nfc powf sort_sets by1 e s = Done (v, s') -> P s'.
Proof. intros H E. apply (eval_inv nfc powf sort_sets state offset constants_of (lookup by1) P offset_keeps lookup_keeps e s v s' H E). Qed.
Lemma evaluate_same e s : P s -> evaluate nfc powf sort_sets by1 e s = evaluate nfc powf sort_sets by2 e s.
Proof.
  intro H. apply (eval_same nfc powf sort_sets state offset constants_of (lookup by1) P offset_keeps lookup_keeps (lookup by2)); [|exact H].
  intros k x Hx. unfold lookup. rewrite (lookup_type_same k x Hx). reflexivity.
Qed.
Lemma obind_same {A B} (x y : out A) (f g : A -> out B) : x = y -> (forall a, x = Done a -> f a = g a) -> obind x f = obind y g.
Proof. intros <- F. destruct x as [a| |]; try reflexivity. apply F. reflexivity. Qed.
Lemma directive_same d e s : P s -> evaluate_directive nfc powf sort_sets by1 d e s = evaluate_directive nfc powf sort_sets by2 d e s.
Proof. intro H. destruct d, e as [e|]; try reflexivity; cbn [evaluate_directive]; rewrite (evaluate_same e s H); reflexivity. Qed.
Lemma resolve_same t s : P s -> resolve by1 t s = resolve by2 t s.
Proof.
  intro H. assert (L : forall x, resolve_scalar by1 x s = resolve_scalar by2 x s) by (intros [k|p|bits]; try reflexivity; cbn [resolve_scalar]; rewrite (lookup_type_same k s H); reflexivity).
  destruct t as [x|x n|x n]; cbn [resolve]; rewrite L; reflexivity.
Qed.
Lemma convert_keeps t s d s' : P s -> convert_type nfc powf sort_sets by1 t s = Done (d, s') -> P s'.
Proof.
  intros H E. destruct t as [x|x k n]; cbn [convert_type] in E; [apply done_inj in E; injection E as _ <-; exact H|].
  apply obind_done in E. destruct E as ( (v & s1) & E & E'). apply obind_done in E'. destruct E' as (m & _ & E'). apply obind_done in E'. destruct E' as (t & _ & E'). apply done_inj in E'. injection E' as _ <-. apply (evaluate_keeps _ _ _ _ H E).
Qed.
Lemma convert_same t s : P s -> convert_type nfc powf sort_sets by1 t s = convert_type nfc powf sort_sets by2 t s.
Proof. intro H. destruct t as [x|x k n]; [reflexivity|]. cbn [convert_type]. rewrite (evaluate_same n s H). reflexivity. Qed.
Lemma resolve_scalar_keeps t s r s' : P s -> resolve_scalar by1 t s = Done (r, s') -> P s'.
Proof.
  intros H E. destruct t as [k|p|bits]; cbn [resolve_scalar] in E; [|apply done_inj in E; injection E as _ <-; exact H|apply done_inj in E; injection E as _ <-; exact H].
  apply obind_done in E. destruct E as ( (c & s1) & E & E'). cbn [fst snd] in E'. destruct (compiled_kind c); [|discriminate E']. apply done_inj in E'. injection E' as _ <-. apply (lookup_type_keeps _ _ _ _ H E).
Qed.
Lemma resolve_keeps t s r s' : P s -> resolve by1 t s = Done (r, s') -> P s'.
Proof. intros H E. destruct t as [x|x n|x n]; cbn [resolve] in E; apply obind_done in E; destruct E as ( (y & z) & E & E'); apply done_inj in E'; injection E' as _ <-; apply (resolve_scalar_keeps _ _ _ _ H E). Qed.
Lemma with_body_keeps s r s' : P s -> with_body s r = Done s' -> P s'.
Proof. intros H E. unfold with_body in E. apply obind_done in E. destruct E as (b & _ & E). apply done_inj in E. subst s'. exact H. Qed.
Lemma statement_keeps st s s' : P s -> run_statement nfc powf sort_sets to_float by1 st s = Done s' -> P s'.
Proof.
  intros H E. destruct st as [d e|t name e|t name|bits|]; cbn [run_statement] in E.
  - destruct d, e as [e|]; cbn [evaluate_directive] in E; try discriminate E.
    + apply (with_body_keeps _ _ _ H E).
    + apply obind_done in E. destruct E as ( (v & s1) & E1 & E). cbn [fst snd] in E. destruct v as [q|t|l|o|b|t]; try discriminate E. destruct (qint q) as [z|]; [|discriminate E]. destruct ((0 <=? z)%Z && (z <? 2 ^ 64)%Z && (z mod 8 =? 0)%Z); [|discriminate E]. apply (with_body_keeps _ _ _ (evaluate_keeps _ _ _ _ H E1) E).
    + apply (with_body_keeps _ _ _ H E).
    + apply obind_done in E. destruct E as (g & _ & E). apply done_inj in E. subst s'. exact H.
    + apply obind_done in E. destruct E as ( (v & s1) & E1 & E). cbn [fst snd] in E. destruct v as [q|t|l|o|b|t]; try discriminate E. destruct b; [|discriminate E]. apply done_inj in E. subst s'. apply (evaluate_keeps _ _ _ _ H E1).
    + apply obind_done in E. destruct E as ( (v & s1) & E1 & E). apply done_inj in E. subst s'. apply (evaluate_keeps _ _ _ _ H E1).
    + apply done_inj in E. subst s'. exact H.
  - unfold evaluate_constant in E. destruct (existsb _ _); [discriminate E|]. destruct (is_reserved_keyword name); [discriminate E|]. apply obind_done in E. destruct E as ( (v & s1) & E1 & E). apply obind_done in E. destruct E as (c & _ & E). apply done_inj in E. subst s'. apply (evaluate_keeps _ _ _ _ H E1).
  - apply obind_done in E. destruct E as ( (d & s1) & E1 & E). apply obind_done in E. destruct E as ( (r & s2) & E2 & E). cbn [fst snd] in *. destruct (check_deprecated (snd s2) r); [|discriminate E]. apply (with_body_keeps _ _ _ (resolve_keeps _ _ _ _ (convert_keeps _ _ _ _ H E1) E2) E).
  - apply (with_body_keeps _ _ _ H E).
  - apply obind_done in E. destruct E as (g & _ & E). apply done_inj in E. subst s'. exact H.
Qed.
Lemma statement_same st s : P s -> run_statement nfc powf sort_sets to_float by1 st s = run_statement nfc powf sort_sets to_float by2 st s.
Proof.
  intro H. destruct st as [d e|t name e|t name|bits|]; cbn [run_statement]; try reflexivity.
  - apply directive_same. exact H.
  - unfold evaluate_constant. rewrite (evaluate_same e s H). reflexivity.
  - apply obind_same; [apply convert_same; exact H|]. intros (d & s1) E. cbn [fst snd]. rewrite (resolve_same d s1 (convert_keeps _ _ _ _ H E)). reflexivity.
Qed.
Lemma run_keeps sts : forall s s', P s -> run nfc powf sort_sets to_float by1 sts s = Done s' -> P s'.
Proof.
  induction sts as [|st sts IH]; intros s s' H E; cbn [run] in E; [apply done_inj in E; subst s'; exact H|]. apply obind_done in E. destruct E as (s1 & E1 & E). apply (IH s1 s'); [|exact E]. apply (statement_keeps _ _ _ H E1).
Qed.
Lemma run_same sts : forall s, P s -> run nfc powf sort_sets to_float by1 sts s = run nfc powf sort_sets to_float by2 sts s.
Proof.
  induction sts as [|st sts IH]; intros s H; cbn [run]; [reflexivity|]. apply obind_same; [apply statement_same; exact H|]. intros s1 E. apply IH. apply (statement_keeps _ _ _ H E).
Qed.
Lemma compile_file_same k f p : Q p -> compile_file nfc powf sort_sets to_float by1 k f p = compile_file nfc powf sort_sets to_float by2 k f p.
Proof. intro H. unfold compile_file. destruct (file_content f) as [sts|]; [|reflexivity]. rewrite (run_same sts (p, FileState (key_path k) [] false None BStart) H). reflexivity. Qed.
Lemma compile_file_keeps k f p c q : Q p -> compile_file nfc powf sort_sets to_float by1 k f p = Done (c, q) -> Q q.
Proof. intros H E. unfold compile_file in E. destruct (file_content f) as [sts|]; [|discriminate E]. apply obind_done in E. destruct E as (s & E1 & E). apply obind_done in E. destruct E as (c' & _ & E). apply done_inj in E. injection E as _ <-. apply (run_keeps sts (p, FileState (key_path k) [] false None BStart) s H E1). Qed.
End Same.

(** * All files *)

Definition folded (k : key) : list text * text * N * N := (map lowercase (key_path k), lowercase (key_name k), key_major k, key_minor k).
Lemma folded_same a b : folded a = folded b <-> same_key a b.
Proof.
  unfold folded, same_key. split; [intro H; injection H as A B C D; auto|intros (A & B & C & D); congruence].
Qed.
Definition file_item (e : key * file) := (folded (fst e), file_port (snd e)).
Definition done_item (e : key * compiled) := (folded (fst e), port_id (snd e)).
Definition items (p : persistent) := map file_item (pending p) ++ map done_item (done p).
Definition separate {A B} (l : list (A * B)) : Prop := NoDup (map fst l).

Lemma find_key_some {A} k (l : list (key * A)) e : find_key k l = Some e -> In e l /\ same_key (fst e) k.
Proof. unfold find_key. intro H. apply find_some in H. destruct H as (H1 & H2). apply key_eqb_same in H2. auto. Qed.
Lemma remove_key_permutation {A} k (l : list (key * A)) e : find_key k l = Some e -> Permutation l (e :: remove_key k l).
Proof.
  induction l as [|x l IH]; cbn [find_key find remove_key]; intro H; [discriminate H|]. destruct (key_eqb (fst x) k).
  - injection H as ->. apply Permutation_refl.
  - apply (perm_trans (l' := x :: e :: remove_key k l)); [constructor; apply IH; exact H|constructor].
Qed.
Lemma separate_permutation {A B} (l m : list (A * B)) : Permutation l m -> separate l -> separate m.
Proof. intros P H. apply (Permutation_NoDup (Permutation_map fst P) H). Qed.

Section All.
Context (nfc : text -> text) (powf : Qc -> Qc -> option Qc) (sort_sets : list (list value) -> list (list value)) (to_float : nat -> Qc -> option N).
Context (files : list (key * file)).
(** a compiled file, and what was compiled before it *)
Definition made (pre : list (key * compiled)) (k : key) (c : compiled) : Prop :=
  exists k0 f sts g, In (k0, f) files /\ same_key k0 k /\ file_content f = Some sts /\ fruns to_float pre sts (init (key_path k)) g /\ finish g (file_port f) = Done c.
Definition built (rs : list (key * compiled)) : Prop := forall pre k c post, rs = pre ++ (k, c) :: post -> made pre k c.
Lemma built_snoc rs k c : built rs -> made rs k c -> built (rs ++ [(k, c)]).
Proof.
  intros B M pre k' c' post E. destruct (exists_last (l := (k', c') :: post)) as (l & x & El); [intro X; discriminate X|]. rewrite El, app_assoc in E. apply app_inj_tail in E. destruct E as (E1 & E2). subst x.
  destruct l as [|y l]; [injection El as -> -> _; rewrite app_nil_r in E1; subst pre; exact M|]. injection El as <- ->. apply (B pre k' c' l). exact E1.
Qed.
Definition grows (p q : persistent) : Prop :=
  (exists l, done q = done p ++ l) /\ incl (pending q) (pending p) /\ (length (pending q) <= length (pending p))%nat /\
  (separate (items p) -> Permutation (items p) (items q)) /\ (incl (pending p) files -> built (done p) -> built (done q)).
Lemma grows_refl p : grows p p.
Proof. split; [exists []; rewrite app_nil_r; reflexivity|]. split; [apply incl_refl|]. split; [lia|]. split; [intro; apply Permutation_refl|auto]. Qed.
Lemma grows_trans p q r : grows p q -> grows q r -> grows p r.
Proof.
  intros ( (l & E1) & I1 & L1 & P1 & B1) ( (m & E2) & I2 & L2 & P2 & B2). split; [exists (l ++ m); rewrite app_assoc, <- E1; exact E2|]. split; [intros x X; apply I1, I2, X|]. split; [lia|]. split.
  - intro H. apply (perm_trans (P1 H)). apply P2. apply (separate_permutation _ _ (P1 H) H).
  - intros I B. apply B2; [intros x X; apply I, I1, X|apply B1; assumption].
Qed.
Lemma grows_incl p q : grows p q -> incl (done p) (done q).
Proof. intros ( (l & E) & _). rewrite E. apply incl_appl, incl_refl. Qed.
Lemma finish_port g port c : finish g port = Done c -> port_id c = port.
Proof. unfold finish. intro H. apply obind_done in H. destruct H as (m & _ & E). apply done_inj in E. subst c. reflexivity. Qed.

Notation crash := (fun A : Type => @Crash A).
Notation one := (compile_one nfc powf sort_sets to_float).
(** what compiling a file does *)
Definition one_ok (compile : key -> file -> persistent -> out (compiled * persistent)) : Prop :=
  forall k f p c q, compile k f p = Done (c, q) -> grows p q /\ exists sts g, file_content f = Some sts /\ fruns to_float (done q) sts (init (key_path k)) g /\ finish g (file_port f) = Done c.
Lemma add_grows k k0 f p0 p c q compile : one_ok compile -> compile k f p = Done (c, q) -> same_key k0 k -> Permutation (pending p0) ((k0, f) :: pending p) -> done p = done p0 ->
  grows p0 (Persistent (pending q) (done q ++ [(k, c)])).
Proof.
  intros Hone H Sk Hp Hd. apply Hone in H. destruct H as ( ( (l & E) & I & L & P & B) & sts & g & Hf & Hr & Hc). assert (It : Permutation (items p0) (file_item (k0, f) :: items p)).
  { unfold items. rewrite Hd. change (file_item (k0, f) :: map file_item (pending p) ++ map done_item (done p0)) with (map file_item ((k0, f) :: pending p) ++ map done_item (done p0)). apply Permutation_app_tail, Permutation_map, Hp. }
  split; [exists (l ++ [(k, c)]); cbn [done]; rewrite E, Hd, app_assoc; reflexivity|]. cbn [pending done].
  split; [intros x X; apply (Permutation_in x (Permutation_sym Hp)); right; apply I, X|]. split; [rewrite (Permutation_length Hp); cbn [length]; lia|]. split.
  - intro N. pose proof (separate_permutation _ _ It N) as N'. unfold separate in N'. cbn [map] in N'. inversion N' as [|x xs _ N2]. subst x xs. specialize (P N2). apply (perm_trans It). apply (perm_trans (l' := file_item (k0, f) :: items q)); [constructor; exact P|].
    unfold items. cbn [pending done]. rewrite map_app, app_assoc. replace (file_item (k0, f)) with (done_item (k, c)); [apply Permutation_cons_append|]. unfold done_item, file_item. cbn [fst snd]. f_equal; [symmetry; apply folded_same; exact Sk|apply (finish_port g _ _ Hc)].
  - intros If Bf. apply built_snoc; [apply B; [intros x X; apply If; apply (Permutation_in x (Permutation_sym Hp)); right; exact X|rewrite Hd; exact Bf]|]. exists k0, f, sts, g. split; [apply If; apply (Permutation_in _ (Permutation_sym Hp)); left; reflexivity|]. auto.
Qed.
Lemma type_by_key_ok compile : one_ok compile -> forall k p c q, type_by_key crash compile k p = Done (c, q) -> grows p q /\ In (k, c) (done q).
Proof.
  intros Hone k p c q H. unfold type_by_key in H.
  assert (O : match find_key k (pending p) with
    | Some (_, f) =>
        obind (compile k f (Persistent (remove_key k (pending p)) (done p))) (fun r =>
          match find_key k (done (snd r)) with
          | None => Done (fst r, Persistent (pending (snd r)) (done (snd r) ++ [(k, fst r)]))
          | Some _ => Crash
          end)
    | None => Fail
    end = Done (c, q) -> grows p q /\ In (k, c) (done q)).
  { clear H. intro H. destruct (find_key k (pending p)) as [ (k0 & f)|] eqn:Ef; [|discriminate H]. apply obind_done in H. destruct H as ( (c' & q') & H & E). cbn [fst snd] in E. destruct (find_key k (done q')); [discriminate E|]. apply done_inj in E. injection E as <- <-.
    split; [|cbn [done]; apply in_or_app; right; left; reflexivity]. apply (add_grows k k0 f p _ c' q' compile Hone H); [apply (find_key_some _ _ _ Ef)|apply remove_key_permutation; exact Ef|reflexivity]. }
  destruct (find_key k (done p)) as [ (k' & c')|] eqn:Ef; [|apply O, H]. destruct (key_eqb_exact k' k) eqn:Ek; [|apply O, H]. apply key_exact_eq in Ek. subst k'. apply done_inj in H. injection H as <- <-. split; [apply grows_refl|]. apply (find_key_some _ _ _ Ef).
Qed.
Lemma one_right n : one_ok (one crash n).
Proof.
  induction n as [|n IH]; intros k f p c q H; cbn [compile_one] in H; [discriminate H|]. apply (compile_file_right nfc powf sort_sets to_float grows grows_refl grows_trans grows_incl (type_by_key crash (one crash n)) (type_by_key_ok _ IH) k f p c q H).
Qed.
Lemma all_right n : forall p rs, compile_all nfc powf sort_sets to_float crash n p = Done rs -> grows p (Persistent [] rs).
Proof.
  induction n as [|n IH]; intros [pend dn] rs H; cbn [compile_all pending done] in H; (destruct pend as [|(k & f) r]; [apply done_inj in H; subst rs; apply grows_refl|]); [discriminate H|].
  apply obind_done in H. destruct H as ( (c & q) & H & E). cbn [fst snd] in E. destruct (find_key k (done q)); [discriminate E|]. apply IH in E. apply (fun G => grows_trans _ _ _ G E).
  apply (add_grows k k f _ (Persistent r dn) c q _ (one_right (Datatypes.S n)) H); [apply same_refl|apply Permutation_refl|reflexivity].
Qed.

(** ** Fuel, and what never happens *)
Context (stop : forall A : Type, out A).
Lemma not_twice k k0 f p0 p c q compile : one_ok compile -> compile k f p = Done (c, q) -> same_key k0 k -> Permutation (pending p0) ((k0, f) :: pending p) -> done p = done p0 -> separate (items p0) ->
  find_key k (done q) = None.
Proof.
  intros Hone H Sk Hp Hd N. pose proof (add_grows k k0 f p0 p c q compile Hone H Sk Hp Hd) as (_ & _ & _ & P & _). specialize (P N). apply (separate_permutation _ _ P) in N. apply find_key_none. intros k' c' X Y.
  unfold items, separate in N. cbn [pending done] in N. rewrite !map_app in N. cbn [map] in N. rewrite app_assoc in N. apply NoDup_remove_2 in N. apply N. rewrite app_nil_r. apply in_or_app. right. apply in_map_iff. exists (done_item (k', c')). split; [cbn [done_item fst]; symmetry; apply folded_same; exact Y|]. apply in_map. exact X.
Qed.
Lemma one_same n : forall m k f p, (length (pending p) < n)%nat -> (length (pending p) < m)%nat -> separate (items p) -> one crash n k f p = one stop m k f p.
Proof.
  induction n as [|n IH]; intros m k f p Hn Hm N; [lia|]. destruct m as [|m]; [lia|]. cbn [compile_one].
  set (Q := fun q => separate (items q) /\ (length (pending q) <= length (pending p))%nat).
  apply (compile_file_same nfc powf sort_sets to_float Q); [| |split; [exact N|lia] ].
  - intros k' p' c q (N1 & L1) H. apply (type_by_key_ok _ (one_right n)) in H. destruct H as ( (_ & _ & L & P & _) & _). split; [apply (separate_permutation _ _ (P N1) N1)|lia].
  - intros k' p' (N1 & L1). unfold type_by_key.
    assert (O : match find_key k' (pending p') with
      | Some (_, f) => obind (one crash n k' f (Persistent (remove_key k' (pending p')) (done p'))) (fun r =>
            match find_key k' (done (snd r)) with None => Done (fst r, Persistent (pending (snd r)) (done (snd r) ++ [(k', fst r)])) | Some _ => Crash end)
      | None => Fail end = match find_key k' (pending p') with
      | Some (_, f) => obind (one stop m k' f (Persistent (remove_key k' (pending p')) (done p'))) (fun r =>
            match find_key k' (done (snd r)) with None => Done (fst r, Persistent (pending (snd r)) (done (snd r) ++ [(k', fst r)])) | Some _ => stop _ end)
      | None => Fail end).
    { destruct (find_key k' (pending p')) as [ (k0 & f')|] eqn:Ef; [|reflexivity]. pose proof (remove_key_permutation _ _ _ Ef) as Hp. pose proof (Permutation_length Hp) as Hl. cbn [length] in Hl. apply obind_same.
      - apply IH; cbn [pending]; [lia|lia|]. assert (It : Permutation (items p') (file_item (k0, f') :: items (Persistent (remove_key k' (pending p')) (done p')))).
        { unfold items. cbn [pending done]. rewrite app_comm_cons. apply Permutation_app_tail. apply (Permutation_map file_item Hp). }
        apply (separate_permutation _ _ It) in N1. unfold separate in N1. cbn [map] in N1. inversion N1. assumption.
      - intros (c & q) E. cbn [fst snd]. rewrite (not_twice k' k0 f' p' _ c q _ (one_right n) E (proj2 (find_key_some _ _ _ Ef)) Hp eq_refl N1). reflexivity. }
    destruct (find_key k' (done p')) as [ (k2 & c2)|]; [|exact O]. destruct (key_eqb_exact k2 k'); [reflexivity|exact O].
Qed.
Lemma all_same n : forall m p, (length (pending p) <= n)%nat -> (length (pending p) <= m)%nat -> separate (items p) ->
  compile_all nfc powf sort_sets to_float crash n p = compile_all nfc powf sort_sets to_float stop m p.
Proof.
  induction n as [|n IH]; intros m [pend dn] Hn Hm N; cbn [pending] in Hn, Hm; destruct m as [|m]; cbn [compile_all pending done]; destruct pend as [|(k & f) r]; try reflexivity; cbn [length] in Hn, Hm; try lia.
  assert (It : Permutation (items (Persistent ((k, f) :: r) dn)) (file_item (k, f) :: items (Persistent r dn))) by apply Permutation_refl.
  apply obind_same.
  - apply one_same; cbn [pending]; [lia|lia|]. apply (separate_permutation _ _ It) in N. unfold separate in N. cbn [map] in N. inversion N. assumption.
  - intros (c & q) E. cbn [fst snd]. rewrite (not_twice k k f (Persistent ((k, f) :: r) dn) (Persistent r dn) c q _ (one_right (Datatypes.S n)) E (same_refl k) (Permutation_refl _) eq_refl N).
    pose proof (add_grows k k f (Persistent ((k, f) :: r) dn) (Persistent r dn) c q _ (one_right (Datatypes.S n)) E (same_refl k) (Permutation_refl _) eq_refl) as (_ & _ & _ & P & _).
    pose proof (one_right _ k f _ c q E) as ( (_ & _ & L & _ & _) & _). cbn [pending] in L. apply IH; cbn [pending]; [lia|lia|]. apply (separate_permutation _ _ (P N) N).
Qed.
End All.
