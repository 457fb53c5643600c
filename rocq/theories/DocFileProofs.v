(** Proofs about documentation comments: whole files. *)
From Coq Require Import String QArith Qcanon Lia Permutation.
From Verif Require Import Base BlsModel BlsSpec GenModel ExprModel ExprSpec ExprProofs PkgModel PkgSpec PkgProofs CompModel CompSpec CompProofs CompFileProofs ParseModel DocModel DocSpec DocProofs.
Open Scope list_scope.
Open Scope N_scope.

Section Run.
Context (nfc : text -> text) (powf : Qc -> Qc -> option Qc) (sort_sets : list (list value) -> list (list value)) (to_float : nat -> Qc -> option N).
Section ByKey.
Context (by_key : key -> persistent -> out (compiled * persistent)).
Notation runs := (run_items nfc powf sort_sets to_float by_key).
Notation step := (run_statement nfc powf sort_sets to_float by_key).

(** * Comments change nothing *)

Lemma items_statements is : forall s d s' d', runs is s d = Done (s', d') -> CompModel.run nfc powf sort_sets to_float by_key (statements is) s = Done s'.
Proof.
  induction is as [|[st|t] is IH]; intros s d s' d' H; cbn [run_items] in H.
  - apply done_inj in H. injection H as <- _. reflexivity.
  - apply obind_done in H as (s1 & E & H). change (statements (IStatement st :: is)) with (st :: statements is). cbn [CompModel.run]. rewrite E. cbn [obind]. apply (IH _ _ _ _ H).
  - apply (IH _ _ _ _ H).
Qed.
Lemma statements_items is : forall s d s', CompModel.run nfc powf sort_sets to_float by_key (statements is) s = Done s' -> exists d', runs is s d = Done (s', d').
Proof.
  induction is as [|[st|t] is IH]; intros s d s' H; cbn [run_items].
  - apply done_inj in H. subst s'. exists d. reflexivity.
  - change (statements (IStatement st :: is)) with (st :: statements is) in H. cbn [CompModel.run] in H. apply obind_done in H as (s1 & E & H). rewrite E. cbn [obind]. apply (IH _ _ _ H).
  - apply (IH _ _ _ H).
Qed.
Lemma items_snoc is i : forall s d, runs (is ++ [i]) s d = obind (runs is s d) (fun r => runs [i] (fst r) (snd r)).
Proof.
  induction is as [|[st|t] is IH]; intros s d; [reflexivity| |].
  - cbn [app run_items]. destruct (step st s) as [s1| |]; cbn [obind]; [apply IH|reflexivity|reflexivity].
  - cbn [app run_items]. apply IH.
Qed.

(** * Statements without the offset *)

Definition not_used (b : body) : Prop := forall vs l, b <> BUnion vs (UUsed l).
Lemma plain_evaluate e s x s' : (exists v, denotes e v) -> evaluate nfc powf sort_sets by_key e s = Done (x, s') -> s' = s.
Proof. intros (v & D) H. unfold evaluate in H. rewrite (denotes_right nfc powf sort_sets state offset constants_of (lookup by_key) e v D s) in H. apply done_inj in H. injection H as _ <-. reflexivity. Qed.
Lemma extent_not_used e b b' : apply_extent e b = Done b' -> not_used b'.
Proof. unfold not_used. destruct b as [|fs [x|] l|vs [|l|x l] ]; cbn [apply_extent]; intro H; try discriminate H; try destruct (2 <=? length vs)%nat; try discriminate H; apply done_inj in H; subst b'; discriminate. Qed.
Lemma plain_step st s s' : plain st -> not_used (fs_body (snd s)) -> step st s = Done s' -> not_used (fs_body (snd s')).
Proof.
  intros P U H. destruct st as [d e|t name e|t name|bits|]; cbn [run_statement] in H.
  - destruct d, e as [e|]; cbn [evaluate_directive] in H; try discriminate H; cbn [plain] in P.
    + unfold with_body in H. apply obind_done in H as (b & H & E). apply done_inj in E. subst s'. cbn [snd set_body fs_body]. unfold handle_union in H. destruct (fs_body (snd s)); try discriminate H. apply done_inj in H. subst b. unfold not_used. discriminate.
    + apply obind_done in H as ((v & s1) & _ & E). cbn [fst snd] in E. destruct v as [q|t|l|o|b|t]; try discriminate E. destruct (qint q) as [z|]; [|discriminate E]. destruct (_ && _); [|discriminate E]. unfold with_body in E. apply obind_done in E as (b & Eb & E). apply done_inj in E. subst s'. cbn [snd set_body fs_body]. apply (extent_not_used _ _ _ Eb).
    + unfold with_body in H. apply obind_done in H as (b & H & E). apply done_inj in E. subst s'. cbn [snd set_body fs_body]. apply (extent_not_used _ _ _ H).
    + apply obind_done in H as (g & H & E). apply done_inj in E. subst s'. cbn [snd]. unfold handle_deprecated in H. destruct (fs_deprecated (snd s)); [discriminate H|]. destruct (fs_request (snd s)); [discriminate H|]. destruct (fs_body (snd s)) as [|fs x l|[|v vs] [|l|x l] ] eqn:Eb; try discriminate H; apply done_inj in H; subst g; cbn [fs_body]; rewrite ?Eb; exact U.
    + apply obind_done in H as ((v & s1) & H & E). apply (plain_evaluate _ _ _ _ P) in H. subst s1. cbn [fst snd] in E. destruct v as [q|t|l|o|b|t]; try discriminate E. destruct b; [|discriminate E]. apply done_inj in E. subst s'. exact U.
    + apply obind_done in H as ((v & s1) & H & E). apply (plain_evaluate _ _ _ _ P) in H. subst s1. cbn [fst snd] in E. apply done_inj in E. subst s'. exact U.
    + apply done_inj in H. subst s'. exact U.
  - unfold evaluate_constant in H. destruct (existsb _ _); [discriminate H|]. destruct (is_reserved_keyword name); [discriminate H|]. apply obind_done in H as ((v & s1) & H & E). apply (plain_evaluate _ _ _ _ P) in H. subst s1. cbn [fst snd] in E. apply obind_done in E as (c & _ & E). apply done_inj in E. subst s'. exact U.
  - apply obind_done in H as ((d & s1) & _ & H). apply obind_done in H as ((r & s2) & _ & H). cbn [fst snd] in *. destruct (check_deprecated (snd s2) r); [|discriminate H]. unfold with_body in H. apply obind_done in H as (b & Eb & E). apply done_inj in E. subst s'. cbn [snd set_body fs_body].
    unfold add_field in Eb. unfold not_used. destruct (fs_body (snd s2)) as [|fs [x|] l|vs [|l|x l] ]; try discriminate Eb.
    + apply done_inj in Eb. subst b. discriminate.
    + destruct (existsb (has_name name) fs); [discriminate Eb|]. apply obind_done in Eb as (a & _ & Eb). apply done_inj in Eb. subst b. discriminate.
    + destruct (existsb _ vs); [discriminate Eb|]. apply done_inj in Eb. subst b. discriminate.
  - unfold with_body in H. apply obind_done in H as (b & H & E). apply done_inj in E. subst s'. cbn [snd set_body fs_body]. unfold add_padding in H. unfold not_used. destruct (fs_body (snd s)) as [|fs [x|] l|vs u]; try discriminate H; [apply done_inj in H; subst b; discriminate|]. apply obind_done in H as (a & _ & H). apply done_inj in H. subst b. discriminate.
  - apply obind_done in H as (g & H & E). apply done_inj in E. subst s'. cbn [snd]. unfold handle_marker in H. destruct (fs_request (snd s)); [discriminate H|]. apply obind_done in H as (m & _ & E). apply done_inj in E. subst g. unfold not_used. discriminate.
Qed.

(** Structs that are not finished have fields. *)
Definition started (b : body) : Prop := match b with BStruct fs None _ => fs <> [] | _ => True end.
Lemma touched_started f g : touched f g -> started (fs_body f) -> started (fs_body g).
Proof. intros [->|(vs & E & ->)] H; [exact H|exact Logic.I]. Qed.
Lemma fstep_started r st f g : fstep to_float r st f g -> started (fs_body f) -> started (fs_body g).
Proof.
  intros H. destruct H as [f b Hb|e n f g b T Hl Hn Hm Hb|f b Hb|f g Hg|e f g T Ha|e f g T|t name e v c f g T Ex Hr Hv Hc|t r' name f g b T Ht Hd Hb|bits f b Hb|f g Hg]; intro S; cbn [set_body fs_body].
  - unfold handle_union in Hb. destruct (fs_body f); try discriminate Hb. apply done_inj in Hb. subst b. exact Logic.I.
  - destruct (fs_body g) as [|fs [x|] l|vs [|l|x l] ]; cbn [apply_extent] in Hb; try discriminate Hb; try destruct (2 <=? length vs)%nat; try discriminate Hb; apply done_inj in Hb; subst b; exact Logic.I.
  - destruct (fs_body f) as [|fs [x|] l|vs [|l|x l] ]; cbn [apply_extent] in Hb; try discriminate Hb; try destruct (2 <=? length vs)%nat; try discriminate Hb; apply done_inj in Hb; subst b; exact Logic.I.
  - unfold handle_deprecated in Hg. destruct (fs_deprecated f); [discriminate Hg|]. destruct (fs_request f); [discriminate Hg|]. destruct (fs_body f) as [|fs x l|[|v vs] [|l|x l] ] eqn:Eb; try discriminate Hg; apply done_inj in Hg; subst g; cbn [fs_body]; rewrite ?Eb; exact Logic.I.
  - apply (touched_started _ _ T S).
  - apply (touched_started _ _ T S).
  - apply (touched_started _ _ T S).
  - unfold add_field in Hb. destruct (fs_body g) as [|fs [x|] l|vs [|l|x l] ]; try discriminate Hb.
    + apply done_inj in Hb. subst b. discriminate.
    + destruct (existsb (has_name name) fs); [discriminate Hb|]. apply obind_done in Hb as (a & _ & Hb). apply done_inj in Hb. subst b. cbn [started]. destruct fs; discriminate.
    + destruct (existsb _ vs); [discriminate Hb|]. apply done_inj in Hb. subst b. exact Logic.I.
  - unfold add_padding in Hb. destruct (fs_body f) as [|fs [x|] l|vs u]; try discriminate Hb; [apply done_inj in Hb; subst b; discriminate|]. apply obind_done in Hb as (a & _ & Hb). apply done_inj in Hb. subst b. cbn [started]. destruct fs; discriminate.
  - unfold handle_marker in Hg. destruct (fs_request f); [discriminate Hg|]. apply obind_done in Hg as (m & _ & E). apply done_inj in E. subst g. exact Logic.I.
Qed.

(** * Sections *)

Lemma marker_statements is : In marker is <-> In SMarker (statements is).
Proof.
  unfold statements. rewrite in_flat_map. split; [intro I; exists marker; split; [exact I|left; reflexivity]|]. intros (x & I & J). destruct x as [st|t]; [|destruct J]. destruct J as [-> |[] ]. exact I.
Qed.
Lemma split_unique {A} (x : A) b : forall a b' a', ~ In x b -> ~ In x b' -> b ++ x :: a = b' ++ x :: a' -> b = b' /\ a = a'.
Proof.
  induction b as [|y b IH]; intros a b' a' N N' E.
  - destruct b' as [|y' b']; [injection E as ->; auto|]. injection E as <- _. exfalso. apply N'. left. reflexivity.
  - destruct b' as [|y' b']; injection E as E1 E2; [exfalso; apply N; left; exact E1|]. subst y'. destruct (IH a b' a') as (-> & ->); [intro I; apply N; right; exact I|intro I; apply N'; right; exact I|exact E2|auto].
Qed.
Lemma file_section r pre path f before sect : file_ok to_float r (statements pre) path f -> sections pre before sect -> section_ok to_float r (statements sect) f /\ (fs_request f = None <-> before = None).
Proof.
  intros (_ & F) S. inversion S as [is N E1 E2 E3|b a N1 N2 E1 E2 E3]; subst.
  - destruct (fs_request f) as [m|]; [|split; [apply F|tauto] ]. destruct F as (b & a & E & _). exfalso. apply N, marker_statements. rewrite E. apply in_or_app. right. left. reflexivity.
  - rewrite statements_app in F. change (statements (marker :: sect)) with (SMarker :: statements sect) in F. destruct (fs_request f) as [m|].
    + destruct F as (b' & a' & E & M1 & M2 & _ & S' & _). apply split_unique in E as (_ & ->); [split; [exact S'|split; discriminate]|rewrite <- marker_statements; exact N1|exact M1].
    + destruct F as (N & _). exfalso. apply N, in_or_app. right. left. reflexivity.
Qed.
Lemma sections_snoc pre before sect i : sections pre before sect -> i <> marker -> sections (pre ++ [i]) before (sect ++ [i]).
Proof.
  intros S N. assert (K : forall l, ~ In marker l -> ~ In marker (l ++ [i])) by (intros l M I; apply in_app_or in I as [I|[I|[] ] ]; [apply M, I|apply N, I]). destruct S as [is M|b a M1 M2]; [constructor; apply K, M|]. rewrite <- app_assoc. cbn [app]. constructor; [exact M1|apply K, M2].
Qed.
Lemma placed_before sect i : placed (sect ++ [i]) -> placed sect.
Proof. intros P pre t post E. apply (P pre t (post ++ [i])). rewrite E, <- app_assoc. reflexivity. Qed.

(** * Invariant *)

Context (R : persistent -> persistent -> Prop) (Rrefl : forall p, R p p) (Rtrans : forall p q r, R p q -> R q r -> R p r).
Context (Rincl : forall p q, R p q -> incl (done p) (done q)).
Context (Hby : forall k p c q, by_key k p = Done (c, q) -> R p q /\ In (k, c) (done q)).

Record documented (pre : list item) (s : state) (d : doc_state) (before : option (list item)) (sect : list item) : Prop := Documented {
  do_sections : sections pre before sect;
  do_recent : recent (at_end sect) (doc_now d);
  do_below : below (doc_position d) (doc_now d);
  do_now : placed sect -> documents sect (doc_now d);
  do_request : match before, doc_request d with None, None => True | Some b, Some r => placed b -> documents b r | _, _ => False end;
  do_used : Forall plain (statements sect) -> not_used (fs_body (snd s));
  do_started : started (fs_body (snd s))
}.
Lemma none_documents : documents [] no_docs.
Proof. constructor; reflexivity. Qed.
Lemma empty_below n : below n no_docs.
Proof. intros j y []. Qed.
Lemma comment_goes r sect f t d : section_ok to_float r (statements sect) f -> recent (at_end sect) d -> in_place (statements sect) ->
  (Forall plain (statements sect) -> not_used (fs_body f)) -> started (fs_body f) -> goes (at_end sect) t d (handle_comment f t d).
Proof.
  intros S Rc (E & U) Nu St. destruct (place_counts sect) as (C1 & C2). pose proof (se_members _ _ _ _ S) as M. apply Forall2_len in M. pose proof (se_union _ _ _ _ S) as Un. pose proof (se_ending _ _ _ _ S) as En.
  assert (No : body_ending (fs_body f) = None) by (unfold ending_right in En; destruct (body_ending (fs_body f)); [destruct En as (st & En & _); rewrite E in En; discriminate En|reflexivity]).
  assert (Ow : (0 < nc (at_end sect) + nm (at_end sect))%nat -> now (at_end sect) <> OwnType) by (intros L X; inversion Rc as [d' E1 E2 E3|n m d' cs i x E1 E2 E3 E4 E5|n m d' ms i x E1 E2 E3 E4 E5]; rewrite <- ?E3, <- ?E5 in *; cbn [start nc nm now] in *; [lia|discriminate X|discriminate X]).
  unfold handle_comment. destruct (fs_body f) as [|fs [x|] l|vs [|l|x l] ] eqn:Eb; cbn [body_ending body_union body_members started length map] in *; try discriminate No.
  - rewrite M in C2. unfold goes. inversion Rc as [d' E1 E2 E3|n m d' cs i x E1 E2 E3 E4 E5|n m d' ms i x E1 E2 E3 E4 E5]; rewrite <- ?E3, <- ?E5 in *; cbn [start nc nm now] in *.
    + rewrite E1. reflexivity.
    + rewrite E1. destruct cs; reflexivity.
    + discriminate C2.
  - apply recent_goes; [exact Rc|]. apply Ow. rewrite map_length in M. destruct fs; [contradiction|]. cbn [length] in M. lia.
  - apply recent_goes; [exact Rc|]. apply Ow. destruct U as (_ & [U|U]); [apply Un; exact Logic.I| |].
    + destruct (constant_statements (statements sect)); [contradiction|cbn [length] in C1; lia].
    + destruct (attributes (statements sect)); [contradiction|cbn [length] in C2; lia].
  - destruct U as (U & _); [apply Un; exact Logic.I|]. exfalso. apply (Nu U vs l). reflexivity.
Qed.
Lemma items_documented k p is : forall s d, runs is (p, init (key_path k)) (DocState no_docs None 0) = Done (s, d) -> exists before sect, documented is s d before sect.
Proof.
  induction is as [|i is IH] using rev_ind; intros s d H.
  - cbn [run_items] in H. apply done_inj in H. injection H as <- <-. exists None, []. constructor; cbn [doc_now doc_request doc_position snd init fs_body].
    + constructor. intros [].
    + apply rc_type; reflexivity.
    + apply empty_below.
    + intros _. apply none_documents.
    + exact Logic.I.
    + intros _ vs l. discriminate.
    + exact Logic.I.
  - rewrite items_snoc in H. apply obind_done in H as ((s1 & d1) & H & E). cbn [fst snd] in E. destruct (IH s1 d1 H) as (before & sect & [I1 I2 I3 I4 I5 I6 I7]).
    pose proof (items_statements _ _ _ _ _ H) as Hs. apply (run_right nfc powf sort_sets to_float R Rrefl Rtrans Rincl by_key Hby) in Hs as (_ & Hf). cbn [snd fst] in Hf. pose proof (file_runs _ _ _ _ _ Hf) as Fo. destruct (file_section _ _ _ _ _ _ Fo I1) as (So & Rq).
    destruct i as [st|t]; cbn [run_items] in E.
    + apply obind_done in E as (s2 & Hst & E). apply done_inj in E. injection E as <- <-. pose proof (statement_right nfc powf sort_sets to_float R Rrefl Rtrans by_key Hby st s1 s2 Hst) as (_ & Fs). pose proof (fstep_started _ _ _ _ Fs I7) as St2.
      assert (X : {st = SMarker} + {st <> SMarker}) by (destruct st; (left; reflexivity) || (right; discriminate)). destruct X as [->|N].
      * cbn [run_statement] in Hst. apply obind_done in Hst as (g & Hg & E). apply done_inj in E. subst s2. unfold handle_marker in Hg. destruct (fs_request (snd s1)) as [m|] eqn:Er; [discriminate Hg|]. destruct Rq as (Rq & _). specialize (Rq eq_refl). subst before. inversion I1 as [is0 N E1 E2 E3|]; subst.
        exists (Some sect), []. constructor; cbn [doc_statement doc_now doc_request doc_position].
        -- constructor; [exact N|intros []].
        -- apply rc_type; reflexivity.
        -- apply empty_below.
        -- intros _. apply none_documents.
        -- exact I4.
        -- apply obind_done in Hg as (m & _ & E). apply done_inj in E. subst g. intros _ vs l. discriminate.
        -- exact St2.
      * exists before, (sect ++ [IStatement st]). destruct (doc_statement_recent sect st d1 I2 I3 N) as (J2 & J3). constructor.
        -- apply sections_snoc; [exact I1|]. intro E. injection E as ->. apply N. reflexivity.
        -- exact J2.
        -- exact J3.
        -- intro P. apply doc_statement_texts; [apply I4, (placed_before _ _ P)|exact N].
        -- destruct st; try contradiction; exact I5.
        -- rewrite statements_snoc. intro P. apply Forall_app in P as (P & Q). inversion Q; subst. apply (plain_step st s1 s2); [assumption|apply I6, P|exact Hst].
        -- exact St2.
    + apply done_inj in E. injection E as <- <-. exists before, (sect ++ [IComment t]). destruct (keeps_numbers (snd s1) t (doc_now d1)) as (K1 & K2). constructor; cbn [doc_now doc_request doc_position].
      * apply sections_snoc; [exact I1|discriminate].
      * rewrite at_end_snoc. cbn [declare]. apply (numbers_recent _ (doc_now d1)); assumption.
      * apply (numbers_below _ (doc_now d1)); assumption.
      * intro P. apply (goes_documents sect t (doc_now d1)); [exact I2| |apply I4, (placed_before _ _ P)]. apply (comment_goes (done (fst s1))); try assumption. apply (P sect t []). reflexivity.
      * exact I5.
      * rewrite statements_comment. exact I6.
      * exact I7.
Qed.
End ByKey.

Notation crash := (fun A : Type => @Crash A).
Notation one := (compile_one nfc powf sort_sets to_float).
Lemma one_items n k is port p c q : one crash n k (File (Some (statements is)) port) p = Done (c, q) <-> exists d, compile_one_items nfc powf sort_sets to_float n k is port p = Done (c, d, q).
Proof.
  destruct n as [|n]; cbn [compile_one compile_one_items]; [split; [discriminate|intros (d & H); discriminate H]|]. unfold compile_file, compile_items. cbn [file_content file_port]. split.
  - intro H. apply obind_done in H as (s & H & E). apply obind_done in E as (c' & E & F). apply done_inj in F. injection F as <- <-. destruct (statements_items _ is _ (DocState no_docs None 0) _ H) as (d & Hd). exists d. rewrite Hd. cbn [obind fst snd]. rewrite E. reflexivity.
  - intros (d & H). apply obind_done in H as ((s & d') & H & E). cbn [fst snd] in E. apply obind_done in E as (c' & E & F). apply done_inj in F. injection F as <- <- <-. apply items_statements in H. rewrite H. cbn [obind]. rewrite E. reflexivity.
Qed.
Lemma one_documented n k is port p c d q : compile_one_items nfc powf sort_sets to_float n k is port p = Done (c, d, q) ->
  exists before sect, sections is before sect /\ (placed sect -> documents sect (doc_now d)) /\ match before, doc_request d with None, None => True | Some b, Some r => placed b -> documents b r | _, _ => False end.
Proof.
  destruct n as [|n]; cbn [compile_one_items]; [discriminate|]. unfold compile_items. intro H. apply obind_done in H as ((s & d') & H & E). cbn [fst snd] in E. apply obind_done in E as (c' & _ & F). apply done_inj in F. injection F as _ <- _.
  destruct (items_documented (type_by_key crash (one crash n)) (grows to_float []) (grows_refl _ _) (grows_trans _ _) (grows_incl _ _) (type_by_key_ok _ _ _ (one_right nfc powf sort_sets to_float [] n)) k p is s d' H) as (before & sect & [I1 I2 I3 I4 I5 I6 I7]).
  exists before, sect. auto.
Qed.

(** * Where types come from *)

Definition came (p0 q : persistent) : Prop :=
  incl (pending q) (pending p0) /\
  forall k c, In (k, c) (done q) -> In (k, c) (done p0) \/ exists n k0 f p1 q1, In (k0, f) (pending p0) /\ same_key k0 k /\ one crash n k f p1 = Done (c, q1).
Lemma remove_incl {A} k (l : list (key * A)) : incl (remove_key k l) l.
Proof. induction l as [|e l IH]; [intros x []|]. cbn [remove_key]. destruct (key_eqb (fst e) k); [intros x I; right; exact I|]. intros x [-> |I]; [left; reflexivity|right; apply IH, I]. Qed.
Lemma came_add n p0 p k k0 f c q : came p0 p -> In (k0, f) (pending p) -> same_key k0 k -> forall p1, incl (pending p1) (pending p) -> done p1 = done p -> one crash n k f p1 = Done (c, q) -> (forall p2, came p2 p1 -> came p2 q) ->
  came p0 (Persistent (pending q) (done q ++ [(k, c)])).
Proof.
  intros (C1 & C2) I S p1 P1 D1 H K. assert (Q : came p0 q) by (apply K; split; [intros x X; apply C1, P1, X|rewrite D1; exact C2]). destruct Q as (Q1 & Q2). split; [exact Q1|]. cbn [done]. intros k' c' J. apply in_app_or in J as [J|[J|[] ] ]; [apply Q2, J|]. injection J as <- <-. right. exists n, k0, f, p1, q. auto.
Qed.
Lemma one_came n : forall p0 k f p c q, came p0 p -> one crash n k f p = Done (c, q) -> came p0 q.
Proof.
  induction n as [|n IH]; intros p0 k f p c q C H; [discriminate H|]. cbn [compile_one] in H. refine (compile_file_keeps nfc powf sort_sets to_float (came p0) (type_by_key crash (one crash n)) _ k f p c q C H). clear k f p c q C H.
  intros k p c q C H. unfold type_by_key in H.
  assert (O : match find_key k (pending p) with
    | Some (_, f) =>
        obind (one crash n k f (Persistent (remove_key k (pending p)) (done p))) (fun r =>
          match find_key k (done (snd r)) with
          | None => Done (fst r, Persistent (pending (snd r)) (done (snd r) ++ [(k, fst r)]))
          | Some _ => Crash
          end)
    | None => Fail
    end = Done (c, q) -> came p0 q).
  { clear H. intro H. destruct (find_key k (pending p)) as [ (k0 & f)|] eqn:Ef; [|discriminate H]. apply obind_done in H as ((c' & q') & H & E). cbn [fst snd] in E. destruct (find_key k (done q')); [discriminate E|]. apply done_inj in E. injection E as <- <-. apply find_key_some in Ef as (Ef & Sk).
    refine (came_add n p0 p k k0 f c' q' C Ef Sk (Persistent (remove_key k (pending p)) (done p)) (remove_incl k (pending p)) eq_refl H _). intros p2 C2. apply (IH p2 k f _ c' q' C2 H). }
  destruct (find_key k (done p)) as [ (k' & c')|]; [|apply O, H]. destruct (key_eqb_exact k' k); [|apply O, H]. apply done_inj in H. injection H as _ <-. exact C.
Qed.
Lemma all_came n : forall p0 p rs, came p0 p -> compile_all nfc powf sort_sets to_float crash n p = Done rs -> came p0 (Persistent [] rs).
Proof.
  induction n as [|n IH]; intros p0 [pend dn] rs C H; cbn [compile_all pending done] in H; (destruct pend as [|(k & f) r]; [apply done_inj in H; subst rs; exact C|]); [discriminate H|].
  apply obind_done in H as ((c & q) & H & E). cbn [fst snd] in E. destruct (find_key k (done q)); [discriminate E|]. apply (IH p0 _ rs) in E; [exact E|].
  refine (came_add (S n) p0 _ k k f c q C (or_introl eq_refl) (same_refl k) (Persistent r dn) _ eq_refl H _); [intros x X; right; exact X|]. intros p2 C2. apply (one_came (S n) p2 k f _ c q C2 H).
Qed.
Lemma compile_came files rs k c : compile nfc powf sort_sets to_float files = Done rs -> In (k, c) rs -> exists n k0 f p q, In (k0, f) files /\ same_key k0 k /\ one crash n k f p = Done (c, q).
Proof.
  intros H I. unfold compile, compile_with in H. apply (all_came _ (Persistent files [])) in H; [|split; [intros x X; exact X|intros k' c' J; left; exact J] ]. destruct H as (_ & H). destruct (H k c I) as [ []|X]. exact X.
Qed.
End Run.
