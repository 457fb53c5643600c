(** Proofs about documentation comments. *)
From Coq Require Import String QArith Qcanon Lia Permutation.
From Verif Require Import Base BlsModel BlsSpec GenModel ExprModel ExprSpec ExprProofs PkgModel PkgSpec PkgProofs CompModel CompSpec CompProofs CompFileProofs ParseModel DocModel DocSpec.
Open Scope list_scope.
Open Scope N_scope.

(** * Lists *)

Lemma last_of_snoc {A} (l : list A) x : last_of (l ++ [x]) = Some x.
Proof. induction l as [|y l IH]; [reflexivity|]. cbn [app last_of]. rewrite IH. destruct (l ++ [x]) eqn:E; [destruct l; discriminate E|reflexivity]. Qed.
Lemma on_last_snoc {A} (f : A -> A) l x : on_last f (l ++ [x]) = l ++ [f x].
Proof. induction l as [|y l IH]; [reflexivity|]. cbn [app on_last]. rewrite IH. destruct (l ++ [x]) eqn:E; [destruct l; discriminate E|reflexivity]. Qed.
Lemma last_of_none {A} (l : list A) : last_of l = None -> l = [].
Proof. destruct l as [|x l] using rev_ind; [reflexivity|]. rewrite last_of_snoc. discriminate. Qed.
Lemma last_of_some {A} (l : list A) x : last_of l = Some x -> exists r, l = r ++ [x].
Proof. destruct l as [|y l _] using rev_ind; [discriminate|]. rewrite last_of_snoc. intro E. injection E as ->. exists l. reflexivity. Qed.

(** * Text *)

Definition joined_text (l : list text) : text := lines (without_leading l).
Lemma lines_snoc l t : l <> [] -> lines (l ++ [t]) = lines l ++ 10 :: t.
Proof.
  induction l as [|x l IH]; [contradiction|]. intros _. destruct l as [|y l]; [reflexivity|]. change (lines ((x :: y :: l) ++ [t])) with (x ++ 10 :: lines ((y :: l) ++ [t])). rewrite (IH ltac:(discriminate)). change (lines (x :: y :: l)) with (x ++ 10 :: lines (y :: l)). rewrite <- app_assoc. reflexivity.
Qed.
Lemma joined_snoc l t : joined_text (l ++ [t]) = append_comment (joined_text l) t.
Proof.
  unfold joined_text. induction l as [|x l IH].
  - cbn [app]. destruct t as [|c t]; reflexivity.
  - destruct x as [|c x]; [exact IH|]. cbn [app without_leading]. change ((c :: x) :: l ++ [t]) with (((c :: x) :: l) ++ [t]). rewrite lines_snoc by discriminate. destruct l; reflexivity.
Qed.

(** * Owners *)

Record place := Place { now : owner; nc : nat; nm : nat }.
Definition declare (p : place) (i : item) : place :=
  match i with
  | IStatement (SConstant _ _ _) => Place (OwnConstant (nc p)) (S (nc p)) (nm p)
  | IStatement (SField _ _) | IStatement (SPadding _) => Place (OwnMember (nm p)) (nc p) (S (nm p))
  | _ => p
  end.
Definition start : place := Place OwnType 0 0.
Definition at_end (sect : list item) : place := fold_left declare sect start.
Lemma at_end_snoc sect i : at_end (sect ++ [i]) = declare (at_end sect) i.
Proof. unfold at_end. rewrite fold_left_app. reflexivity. Qed.
Lemma owners_app a b : forall p, owners (now p) (nc p) (nm p) (a ++ b) = owners (now p) (nc p) (nm p) a ++ (let q := fold_left declare a p in owners (now q) (nc q) (nm q) b).
Proof.
  induction a as [|i a IH]; intro p; [reflexivity|]. cbn [app fold_left]. specialize (IH (declare p i)). destruct i as [ [d e|t n e|t n|bits|]|t]; cbn [declare owners app now nc nm] in *; try exact IH. f_equal. exact IH.
Qed.
Lemma owners_comment sect t : owners OwnType 0 0 (sect ++ [IComment t]) = owners OwnType 0 0 sect ++ [(now (at_end sect), t)].
Proof. exact (owners_app sect [IComment t] start). Qed.
Lemma owners_statement sect st : owners OwnType 0 0 (sect ++ [IStatement st]) = owners OwnType 0 0 sect.
Proof. etransitivity; [exact (owners_app sect [IStatement st] start)|]. cbn [start now nc nm]. destruct st; cbn [owners]; apply app_nil_r. Qed.
Lemma owner_eqb_eq a b : owner_eqb a b = true <-> a = b.
Proof. destruct a, b; cbn [owner_eqb]; rewrite ?Nat.eqb_eq; split; intro E; try discriminate E; try reflexivity; try congruence. Qed.
Lemma text_statement sect st o : text_for (sect ++ [IStatement st]) o = text_for sect o.
Proof. unfold text_for, comments_for. rewrite owners_statement. reflexivity. Qed.
Lemma text_comment sect t o : text_for (sect ++ [IComment t]) o = if owner_eqb (now (at_end sect)) o then append_comment (text_for sect o) t else text_for sect o.
Proof.
  unfold text_for, comments_for. rewrite owners_comment, filter_app, map_app. cbn [filter fst]. destruct (owner_eqb (now (at_end sect)) o); cbn [map snd]; [apply joined_snoc|rewrite app_nil_r; reflexivity].
Qed.
Lemma statements_snoc sect st : statements (sect ++ [IStatement st]) = statements sect ++ [st].
Proof. unfold statements. rewrite flat_map_app. reflexivity. Qed.
Lemma statements_comment sect t : statements (sect ++ [IComment t]) = statements sect.
Proof. unfold statements. rewrite flat_map_app. apply app_nil_r. Qed.
Lemma statements_app a b : statements (a ++ b) = statements a ++ statements b.
Proof. apply flat_map_app. Qed.
Lemma place_counts sect : nc (at_end sect) = length (constant_statements (statements sect)) /\ nm (at_end sect) = length (attributes (statements sect)).
Proof.
  induction sect as [|i sect IH] using rev_ind; [split; reflexivity|]. rewrite at_end_snoc. destruct i as [st|t]; [|rewrite statements_comment; exact IH]. rewrite statements_snoc, constants_snoc, attributes_snoc, !app_length.
  destruct IH as (A & B). destruct st; cbn [declare nc nm constant_statements attributes filter length]; lia.
Qed.

(** The last owner is the constant or member with the greatest number. *)
Inductive recent : place -> docs -> Prop :=
| rc_type d : constant_docs d = [] -> member_docs d = [] -> recent start d
| rc_constant n m d cs i x : constant_docs d = cs ++ [(i, x)] -> length cs = n -> length (member_docs d) = m -> (forall j y, In (j, y) (member_docs d) -> j < i) -> recent (Place (OwnConstant n) (S n) m) d
| rc_member n m d ms i x : member_docs d = ms ++ [(i, x)] -> length ms = m -> length (constant_docs d) = n -> (forall j y, In (j, y) (constant_docs d) -> j < i) -> recent (Place (OwnMember m) n (S m)) d.
Definition below (n : N) (d : docs) : Prop := forall j y, In (j, y) (constant_docs d ++ member_docs d) -> j < n.

(** * What statements do *)

Lemma doc_statement_recent sect st d : recent (at_end sect) (doc_now d) -> below (doc_position d) (doc_now d) -> st <> SMarker ->
  recent (at_end (sect ++ [IStatement st])) (doc_now (doc_statement st d)) /\ below (doc_position (doc_statement st d)) (doc_now (doc_statement st d)).
Proof.
  intros R B N. rewrite at_end_snoc. destruct d as [ [ty cs ms] rq n]. cbn [doc_now doc_position] in *. assert (L : length cs = nc (at_end sect) /\ length ms = nm (at_end sect)).
  { inversion R as [d E1 E2|n0 m d cs0 i x E1 E2 E3 E4|n0 m d ms0 i x E1 E2 E3 E4]; subst; cbn [constant_docs member_docs nc nm start] in *; subst; cbn [length]; try (split; reflexivity); rewrite ?app_length; cbn [length]; lia. }
  destruct L as (L1 & L2). destruct st as [dir e|t name e|t name|bits|]; cbn [doc_statement doc_now doc_position declare type_doc constant_docs member_docs]; [split; [exact R|]|split|split|split|contradiction].
  - intros j y I. specialize (B j y I). lia.
  - apply (rc_constant _ _ _ cs n []); [reflexivity|exact L1|exact L2|]. intros j y I. apply (B j y). apply in_or_app. right. exact I.
  - intros j y I. cbn [constant_docs member_docs] in I. apply in_app_or in I as [I|I]; [apply in_app_or in I as [I|[I|[] ] ]|]; [|injection I as -> _; lia|]; assert (j < n); try lia; apply (B j y), in_or_app; auto.
  - apply (rc_member _ _ _ ms n []); [reflexivity|exact L2|exact L1|]. intros j y I. apply (B j y). apply in_or_app. left. exact I.
  - intros j y I. cbn [constant_docs member_docs] in I. apply in_app_or in I as [I|I]; [|apply in_app_or in I as [I|[I|[] ] ] ]; [| |injection I as -> _; lia]; assert (j < n); try lia; apply (B j y), in_or_app; auto.
  - apply (rc_member _ _ _ ms n []); [reflexivity|exact L2|exact L1|]. intros j y I. apply (B j y). apply in_or_app. left. exact I.
  - intros j y I. cbn [constant_docs member_docs] in I. apply in_app_or in I as [I|I]; [|apply in_app_or in I as [I|[I|[] ] ] ]; [| |injection I as -> _; lia]; assert (j < n); try lia; apply (B j y), in_or_app; auto.
Qed.
Lemma doc_statement_texts sect st d : documents sect (doc_now d) -> st <> SMarker -> documents (sect ++ [IStatement st]) (doc_now (doc_statement st d)).
Proof.
  intros [D1 D2 D3] N.
  assert (New : forall o, (forall x, In x (owners OwnType 0 0 sect) -> fst x <> o) -> text_for sect o = []).
  { intros o H. unfold text_for, comments_for. assert (E : filter (fun x => owner_eqb (fst x) o) (owners OwnType 0 0 sect) = []); [|rewrite E; reflexivity]. induction (owners OwnType 0 0 sect) as [|x l IH]; [reflexivity|]. cbn [filter]. destruct (owner_eqb (fst x) o) eqn:E; [exfalso; apply owner_eqb_eq in E; apply (H x); [left; reflexivity|exact E]|]. apply IH. intros y Y. apply H. right. exact Y. }
  assert (Small : forall x, In x (owners OwnType 0 0 sect) -> match fst x with OwnType => True | OwnConstant i => (i < nc (at_end sect))%nat | OwnMember i => (i < nm (at_end sect))%nat end).
  { clear. induction sect as [|i sect IH] using rev_ind; [intros x []|]. assert (Now : match now (at_end sect) with OwnType => True | OwnConstant i => (i < nc (at_end sect))%nat | OwnMember i => (i < nm (at_end sect))%nat end).
    { clear. induction sect as [|i sect IH] using rev_ind; [exact Logic.I|]. rewrite at_end_snoc. destruct i as [ [d e|t n e|t n|bits|]|t]; cbn [declare now nc nm]; try exact IH; lia. }
    destruct i as [st|t].
    - rewrite owners_statement, at_end_snoc. intros x I. specialize (IH x I). destruct (fst x); [exact Logic.I| |]; destruct st; cbn [declare nc nm]; lia.
    - rewrite owners_comment, at_end_snoc. cbn [declare]. intros x I. apply in_app_or in I as [I|[<- |[] ] ]; [apply IH, I|exact Now]. }
  destruct (place_counts sect) as (C1 & C2). destruct d as [ [ty cs ms] rq n]. cbn [doc_now type_doc constant_docs member_docs] in *.
  assert (S1 : forall o, text_for (sect ++ [IStatement st]) o = text_for sect o) by (intro o; apply text_statement).
  assert (Em : forall f k, map (fun i => text_for (sect ++ [IStatement st]) (f i)) (seq 0 k) = map (fun i => text_for sect (f i)) (seq 0 k)) by (intros f k; apply map_ext; intro i; apply S1).
  constructor; rewrite ?S1, ?Em, ?statements_snoc.
  - destruct st; try contradiction; exact D1.
  - rewrite constants_snoc, app_length. destruct st as [dir e|t name e|t name|bits|]; try contradiction; cbn [doc_statement doc_now constant_docs type_doc member_docs]; try (cbn [constant_statements filter length]; rewrite Nat.add_0_r; exact D2).
    cbn [constant_statements filter length]. rewrite Nat.add_1_r, seq_S, map_app, map_app. cbn [map snd plus]. f_equal; [exact D2|]. rewrite New; [reflexivity|]. intros x I E. specialize (Small x I). rewrite E in Small. fold (constant_statements (statements sect)) in *. lia.
  - rewrite attributes_snoc, app_length. destruct st as [dir e|t name e|t name|bits|]; try contradiction; cbn [doc_statement doc_now constant_docs type_doc member_docs]; try (cbn [attributes filter length]; rewrite Nat.add_0_r; exact D3).
    + cbn [attributes filter length]. rewrite Nat.add_1_r, seq_S, map_app, map_app. cbn [map snd plus]. f_equal; [exact D3|]. rewrite New; [reflexivity|]. intros x I E. specialize (Small x I). rewrite E in Small. fold (attributes (statements sect)) in *. lia.
    + cbn [attributes filter length]. rewrite Nat.add_1_r, seq_S, map_app, map_app. cbn [map snd plus]. f_equal; [exact D3|]. rewrite New; [reflexivity|]. intros x I E. specialize (Small x I). rewrite E in Small. fold (attributes (statements sect)) in *. lia.
Qed.

(** * What comments do *)

Lemma on_last_keeps (t : text) (l : list (N * text)) : map fst (on_last (fun x => (fst x, append_comment (snd x) t)) l) = map fst l.
Proof. destruct l as [|x l _] using rev_ind; [reflexivity|]. rewrite on_last_snoc, !map_app. reflexivity. Qed.
Lemma keeps_numbers f t d : map fst (constant_docs (handle_comment f t d)) = map fst (constant_docs d) /\ map fst (member_docs (handle_comment f t d)) = map fst (member_docs d).
Proof.
  assert (C : forall d, map fst (constant_docs (to_constant t d)) = map fst (constant_docs d) /\ map fst (member_docs (to_constant t d)) = map fst (member_docs d)) by (intro x; cbn [to_constant constant_docs member_docs]; rewrite on_last_keeps; auto).
  assert (M : forall d, map fst (constant_docs (to_member t d)) = map fst (constant_docs d) /\ map fst (member_docs (to_member t d)) = map fst (member_docs d)) by (intro x; cbn [to_member constant_docs member_docs]; rewrite on_last_keeps; auto).
  assert (R : forall d, map fst (constant_docs (to_recent t d)) = map fst (constant_docs d) /\ map fst (member_docs (to_recent t d)) = map fst (member_docs d)).
  { intro x. unfold to_recent. destruct (last_of (constant_docs x)) as [ (i & a)|], (last_of (member_docs x)) as [ (j & b)|]; try destruct (j <? i); auto. }
  unfold handle_comment. destruct (fs_body f) as [|fs [e|] l|vs [|l|e l] ]; [|auto|apply R|apply R|destruct (fs_request f); [apply R|auto]|destruct (fs_request f); [auto|apply R] ].
  pose proof (C d) as Cd. destruct (constant_docs d) eqn:E; [cbn [constant_docs member_docs]; auto|exact Cd].
Qed.
Lemma numbers_recent p d e : map fst (constant_docs e) = map fst (constant_docs d) -> map fst (member_docs e) = map fst (member_docs d) -> recent p d -> recent p e.
Proof.
  intros C M R. assert (In' : forall l m : list (N * text), map fst l = map fst m -> forall j y, In (j, y) l -> exists z, In (j, z) m).
  { intros l m E j y I. assert (J : In j (map fst m)) by (rewrite <- E; apply in_map_iff; exists (j, y); auto). apply in_map_iff in J as ((j' & z) & Ej & J). cbn [fst] in Ej. subst j'. exists z. exact J. }
  assert (Len : forall l m : list (N * text), map fst l = map fst m -> length l = length m) by (intros l m E; rewrite <- (map_length fst l), E; apply map_length).
  assert (Last : forall (l r : list (N * text)) i x, map fst l = map fst (r ++ [(i, x)]) -> exists r' x', l = r' ++ [(i, x')] /\ length r' = length r).
  { intros l r i x E. destruct l as [|(j & y) l _] using rev_ind; [rewrite map_app in E; destruct (map fst r); discriminate E|]. rewrite !map_app in E. cbn [map fst] in E. apply app_inj_tail in E as (E & ->). exists l, y. split; [reflexivity|apply Len, E]. }
  inversion R as [d' E1 E2|n m d' cs i x E1 E2 E3 E4|n m d' ms i x E1 E2 E3 E4]; subst.
  - rewrite E1 in C. rewrite E2 in M. apply rc_type; apply (map_eq_nil fst); assumption.
  - rewrite E1 in C. destruct (Last _ _ _ _ C) as (r & x' & Er & Lr). rewrite <- Lr. apply (rc_constant _ _ _ r i x'); [exact Er|reflexivity|apply Len, M|]. intros j y I. destruct (In' _ _ M _ _ I) as (z & Z). apply (E4 j z Z).
  - rewrite E1 in M. destruct (Last _ _ _ _ M) as (r & x' & Er & Lr). rewrite <- Lr. apply (rc_member _ _ _ r i x'); [exact Er|reflexivity|apply Len, C|]. intros j y I. destruct (In' _ _ C _ _ I) as (z & Z). apply (E4 j z Z).
Qed.
Lemma numbers_below n d e : map fst (constant_docs e) = map fst (constant_docs d) -> map fst (member_docs e) = map fst (member_docs d) -> below n d -> below n e.
Proof.
  intros C M B j y I. assert (J : In j (map fst (constant_docs d ++ member_docs d))) by (rewrite map_app, <- C, <- M, <- map_app; apply in_map_iff; exists (j, y); auto).
  apply in_map_iff in J as ((j' & z) & E & J). cbn [fst] in E. subst j'. apply (B j z J).
Qed.
(** The comment goes to its owner. *)
Definition goes (p : place) (t : text) (d e : docs) : Prop :=
  match now p with
  | OwnType => e = Docs (append_comment (type_doc d) t) (constant_docs d) (member_docs d)
  | OwnConstant _ => e = to_constant t d
  | OwnMember _ => e = to_member t d
  end.
Lemma recent_goes p t d : recent p d -> now p <> OwnType -> goes p t d (to_recent t d).
Proof.
  intros R N. unfold to_recent, goes. inversion R as [d' E1 E2|n m d' cs i x E1 E2 E3 E4|n m d' ms i x E1 E2 E3 E4]; subst; cbn [now start] in *; [contradiction| |]; rewrite E1, last_of_snoc.
  - destruct (last_of (member_docs d)) as [ (j & y)|] eqn:L; [|reflexivity]. apply last_of_some in L as (r & L). assert (J : j < i) by (apply (E4 j y); rewrite L; apply in_or_app; right; left; reflexivity). apply N.ltb_lt in J. rewrite J. reflexivity.
  - destruct (last_of (constant_docs d)) as [ (j & y)|] eqn:L; [|reflexivity]. apply last_of_some in L as (r & L). assert (J : j < i) by (apply (E4 j y); rewrite L; apply in_or_app; right; left; reflexivity). destruct (N.ltb_spec i j); [lia|reflexivity].
Qed.
Lemma goes_documents sect t d e : recent (at_end sect) d -> goes (at_end sect) t d e -> documents sect d -> documents (sect ++ [IComment t]) e.
Proof.
  intros R G [D1 D2 D3]. destruct (place_counts sect) as (C1 & C2). rewrite <- C1 in D2. rewrite <- C2 in D3. unfold goes in G. constructor; rewrite ?statements_comment, <- ?C1, <- ?C2.
  - rewrite text_comment. destruct (now (at_end sect)) eqn:E; rewrite G; cbn [owner_eqb type_doc to_constant to_member]; [rewrite D1; reflexivity|exact D1|exact D1].
  - destruct (now (at_end sect)) as [|n|n] eqn:E; rewrite G; cbn [constant_docs to_constant to_member].
    + rewrite D2. apply map_ext. intro i. rewrite text_comment, E. reflexivity.
    + inversion R as [d' E1 E2 E3|n0 m d' cs i x E1 E2 E3 E4 E5|n0 m d' ms i x E1 E2 E3 E4 E5]; rewrite <- ?E3, <- ?E5 in *; subst; cbn [now nc start] in *; try discriminate E. injection E as <-. rewrite E1, on_last_snoc, map_app. rewrite E1, map_app in D2. cbn [map fst snd] in *. rewrite seq_S, map_app in D2 |- *. cbn [map plus] in *. apply app_inj_tail in D2 as (D2 & Dx). f_equal.
      * rewrite D2. apply map_ext_in. intros j J. apply in_seq in J. rewrite text_comment, <- E5. cbn [now owner_eqb]. destruct (Nat.eqb_spec (length cs) j); [lia|reflexivity].
      * rewrite text_comment, <- E5. cbn [now owner_eqb]. rewrite Nat.eqb_refl, Dx. reflexivity.
    + rewrite D2. apply map_ext. intro i. rewrite text_comment, E. reflexivity.
  - destruct (now (at_end sect)) as [|n|n] eqn:E; rewrite G; cbn [member_docs to_constant to_member].
    + rewrite D3. apply map_ext. intro i. rewrite text_comment, E. reflexivity.
    + rewrite D3. apply map_ext. intro i. rewrite text_comment, E. reflexivity.
    + inversion R as [d' E1 E2 E3|n0 m d' cs i x E1 E2 E3 E4 E5|n0 m d' ms i x E1 E2 E3 E4 E5]; rewrite <- ?E3, <- ?E5 in *; subst; cbn [now nm start] in *; try discriminate E. injection E as <-. rewrite E1, on_last_snoc, map_app. rewrite E1, map_app in D3. cbn [map fst snd] in *. rewrite seq_S, map_app in D3 |- *. cbn [map plus] in *. apply app_inj_tail in D3 as (D3 & Dx). f_equal.
      * rewrite D3. apply map_ext_in. intros j J. apply in_seq in J. rewrite text_comment, <- E5. cbn [now owner_eqb]. destruct (Nat.eqb_spec (length ms) j); [lia|reflexivity].
      * rewrite text_comment, <- E5. cbn [now owner_eqb]. rewrite Nat.eqb_refl, Dx. reflexivity.
Qed.
