(** An upper bound for the length of encodings. *)
From Verif Require Import Base BitLemmas EncModel EncSpec EncWriteProofs BlsModel BlsSpec GenModel GenSpec GenLenProofs GenSizeProofs.
Ltac Zify.zify_post_hook ::= Z.div_mod_to_equations.

Section Bound.
  Context (mb : message -> N).
  Definition scalar_bound (s : scalar message) : N := match s with SComposite m => 32 + mb m | SPrimitive p => N.of_nat (prim_bits p) end.
  Definition type_bound (t : rtype message) : N :=
    7 + match t with TScalar s => scalar_bound s | TFixed s n => n * scalar_bound s | TVariable s n => 64 + n * scalar_bound s end.
  Definition members_bound : list (member message) -> N :=
    fix go fs := match fs with [] => 0 | MPadding bits :: r => N.of_nat bits + go r | MData t :: r => type_bound t + go r end.
  Definition variants_bound : list (rtype message) -> N := fix go ts := match ts with [] => 0 | t :: r => N.max (type_bound t) (go r) end.
End Bound.
Fixpoint bound (m : message) : N :=
  7 + match m with Message _ (KStruct fs) => members_bound bound fs | Message _ (KUnion ts) => 64 + variants_bound bound ts end.

Definition bounded (m : message) : Prop := forall v, fits m v = true -> N.of_nat (length (enc m v)) <= bound m.
Definition scalar_bounded (s : scalar message) : Prop := forall v, scalar_fits prim_fits fits s v = true -> N.of_nat (length (enc_scalar enc s v)) <= scalar_bound bound s.
Lemma scalar_bounded_intro s : scalar_all bounded s -> scalar_bounded s.
Proof.
  destruct s as [m|p]; cbn [scalar_all]; intros H v F; cbn [scalar_fits enc_scalar scalar_bound] in *; [|rewrite enc_prim_length by assumption; lia].
  rewrite app_length. specialize (H v F). assert (length (if delimited m then bits_of 32 (N.of_nat (length (enc m v) / 8)) else []) <= 32)%nat by (destruct (delimited m); [rewrite bits_of_length; lia|cbn [length]; lia]). lia.
Qed.
Lemma items_bounded s vs : scalar_bounded s -> Forall (fun x => scalar_fits prim_fits fits s x = true) vs -> N.of_nat (length (flat_map (enc_scalar enc s) vs)) <= N.of_nat (length vs) * scalar_bound bound s.
Proof.
  intros H. induction 1 as [|x vs Hx _ IH]; cbn [flat_map length]; [lia|]. rewrite app_length. specialize (H x Hx). nia.
Qed.
Lemma prefix_bits_le n : (prefix_bits n <= 64)%nat.
Proof. pose proof (prefix_bits_cases n). lia. Qed.
Lemma align_le p t : (length (enc_align p t) <= 7)%nat.
Proof. unfold enc_align. destruct t as [ [m|q]|[m|q] n|[m|q] n]; cbn [length]; try lia; rewrite pad8_length; lia. Qed.
Lemma type_bounded p t v : scalar_bounded (type_scalar t) -> type_fits prim_fits (fun _ _ => true) fits t v = true -> N.of_nat (length (enc_type enc p t v)) <= type_bound bound t.
Proof.
  intros H F. unfold enc_type, type_bound. rewrite app_length. pose proof (align_le p t). assert (N.of_nat (length (enc_body enc t v)) <= match t with TScalar s => scalar_bound bound s | TFixed s n => n * scalar_bound bound s | TVariable s n => 64 + n * scalar_bound bound s end); [|lia].
  destruct t as [s|s n|s n]; cbn [type_scalar enc_body] in *.
  - apply H. exact F.
  - apply type_fits_fixed in F; [|reflexivity]. destruct F as (<- & F). apply items_bounded; assumption.
  - apply type_fits_variable in F; [|reflexivity]. destruct F as (L & F). rewrite app_length, bits_of_length. pose proof (items_bounded s _ H F). pose proof (prefix_bits_le n). nia.
Qed.
Lemma members_bounded fs : Forall (member_all bounded) fs -> forall p vs, members_fit prim_fits (fun _ _ => true) fits fs vs = true -> N.of_nat (length (enc_members enc p fs vs)) <= members_bound bound fs.
Proof.
  induction 1 as [|f fs Hf _ IH]; intros p vs F; cbn [enc_members members_bound]; [cbn [length]; lia|]. destruct f as [bits|t]; cbn [members_fit] in F.
  - rewrite app_length, repeat_length. specialize (IH (p + bits)%nat vs F). lia.
  - destruct vs as [|v vs]; [discriminate|]. apply andb_true_iff in F as (F1 & F2). cbv zeta. rewrite app_length. specialize (IH (p + length (enc_type enc p t v))%nat vs F2). pose proof (type_bounded p t v (scalar_bounded_intro _ Hf) F1). lia.
Qed.
Theorem bound_right : forall m, bounded m.
Proof.
  apply message_ind'. intros d k H v F. cbn [enc]. unfold pad_to_byte. rewrite app_length, pad8_length. assert (N.of_nat (length (enc_kind enc k v)) <= match k with KStruct fs => members_bound bound fs | KUnion ts => 64 + variants_bound bound ts end); [|destruct k; cbn [bound]; lia].
  unfold fits in F. destruct k as [fs|ts]; cbn [fits_gen kind_all] in *.
  - destruct v as [| | | | |vs|]; try discriminate. apply members_bounded; assumption.
  - destruct v as [| | | | | |tag v]; try discriminate. cbn [enc_kind]. cbv zeta. rewrite app_length, bits_of_length. rewrite pick_cases in F. rewrite pick_cases. destruct (nth_error ts tag) as [t|] eqn:E; [|discriminate].
    pose proof (prefix_bits_le (N.of_nat (length ts) - 1)). set (q := prefix_bits (N.of_nat (length ts) - 1)) in *. pose proof (type_bounded q t v (scalar_bounded_intro _ (nth_error_Forall _ _ _ _ H E)) F).
    assert (type_bound bound t <= variants_bound bound ts); [|lia]. clear - E. revert tag E. induction ts as [|x ts IH]; intros [|tag] E; cbn [nth_error variants_bound] in *; try discriminate; [injection E as ->; lia|]. specialize (IH _ E). lia.
Qed.
