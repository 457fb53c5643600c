(** Encodings have a length in the calculated set; the flags [always_aligned] hold; [size_bits] is right. *)
From Verif Require Import Base BitLemmas EncModel EncSpec EncWriteProofs BlsModel BlsSpec BlsProofs BlsProps GenModel GenSpec GenLenProofs.
Ltac Zify.zify_post_hook ::= Z.div_mod_to_equations.

Lemma pick_cases {A B} (f : A -> B) d l : forall i, pick f d i l = match nth_error l i with Some x => f x | None => d end.
Proof. induction l as [|x l IH]; intros [|i]; cbn [pick nth_error]; try reflexivity. apply IH. Qed.

(** ** Lengths of arrays *)
Lemma den_repeat_list o (f : value -> list bool) vs : Forall (fun x => den o (N.of_nat (length (f x)))) vs ->
  exists ns, length ns = length vs /\ Forall (den o) ns /\ N.of_nat (length (flat_map f vs)) = total ns.
Proof.
  induction 1 as [|x vs Hx _ (ns & H1 & H2 & H3)]; [exists []; repeat split; constructor|].
  exists (N.of_nat (length (f x)) :: ns). split; [cbn [length]; lia|]. split; [constructor; assumption|]. cbn [flat_map]. rewrite app_length, total_cons. lia.
Qed.
Definition scalar_in_set (s : scalar message) : Prop :=
  forall v, scalar_fits prim_fits fits s v = true -> den (scalar_size bit_length s) (N.of_nat (length (enc_scalar enc s v))).
Lemma prim_in_set p : scalar_in_set (SPrimitive p).
Proof. intros v H. cbn [scalar_size]. apply den_single. cbn [enc_scalar]. rewrite enc_prim_length by exact H. reflexivity. Qed.
Lemma items_in_set s vs : scalar_in_set s -> Forall (fun x => scalar_fits prim_fits fits s x = true) vs ->
  exists ns, length ns = length vs /\ Forall (den (scalar_size bit_length s)) ns /\ N.of_nat (length (flat_map (enc_scalar enc s) vs)) = total ns.
Proof. intros Hs H. apply den_repeat_list. eapply Forall_impl; [|exact H]. exact Hs. Qed.
Lemma type_in_set t v : type_wf wf t = true -> scalar_in_set (type_scalar t) -> type_fits prim_fits (fun _ _ => true) fits t v = true ->
  exists k, den (type_size bit_length t) k /\
    N.of_nat (length (enc_body enc t v)) = match t with TVariable _ n => array_length_bits n | _ => 0 end + k.
Proof.
  intros W Hs F. destruct t as [s|s n|s n]; cbn [type_scalar] in Hs.
  - eexists. split; [apply Hs, F|]. reflexivity.
  - destruct (type_fits_fixed _ _ _ _ _ _ fits_bool F) as (F1 & F2). destruct (items_in_set s _ Hs F2) as (ns & H1 & H2 & H3).
    exists (total ns). split; [|cbn [enc_body]; lia]. cbn [type_size bls_repeat den]. exists ns. split; [rewrite H1; assumption|]. split; [assumption|reflexivity].
  - destruct (type_fits_variable _ _ _ _ _ _ fits_bool F) as (F1 & F2). destruct (items_in_set s _ Hs F2) as (ns & H1 & H2 & H3).
    exists (total ns). split.
    + cbn [type_size bls_repeat_range den]. exists ns. split; [rewrite H1; assumption|]. split; [assumption|reflexivity].
    + cbn [enc_body]. rewrite app_length, bits_of_length, array_length_bits_prefix by (apply variable_wf in W; assumption). lia.
Qed.
Lemma total_in_set t v : type_wf wf t = true -> scalar_in_set (type_scalar t) -> match t with TScalar s => sealed s = true | _ => True end ->
  type_fits prim_fits (fun _ _ => true) fits t v = true -> den (total_length bit_length t) (N.of_nat (length (enc_body enc t v))).
Proof.
  intros W Hs S F. destruct (type_in_set t v W Hs F) as (k & H1 & H2). rewrite H2. unfold total_length. destruct t as [s|s n|s n]; cbn [implicit_bits].
  - unfold sealed in S. destruct (scalar_delimited s); [discriminate|]. exact H1.
  - exact H1.
  - apply den_concat2. eexists k, _. split; [exact H1|]. split; [apply den_single; reflexivity|]. lia.
Qed.

(** ** C: lengths are in the calculated set *)
Definition message_in_set (m : message) : Prop := wf m = true -> counted m = true -> forall v, fits m v = true -> den (bit_length m) (N.of_nat (length (enc m v))).
Lemma sealed_in_set s : scalar_all message_in_set s -> scalar_wf wf s = true -> scalar_counted counted s = true -> sealed s = true -> scalar_in_set s.
Proof.
  destruct s as [m|p]; [|intros; apply prim_in_set]. cbn [scalar_all scalar_wf scalar_counted]. intros H W C S v F. unfold sealed in S. cbn [scalar_delimited] in S. cbn [enc_scalar scalar_size].
  destruct (delimited m); [discriminate|]. apply H; assumption.
Qed.
Lemma counted_in_set t v : type_all message_in_set t -> type_wf wf t = true -> type_counted counted t = true -> type_fits prim_fits (fun _ _ => true) fits t v = true ->
  den (total_length bit_length t) (N.of_nat (length (enc_body enc t v))).
Proof.
  intros H W C F. pose proof (type_wf_scalar _ _ W) as Ws. unfold type_all in H. destruct t as [s|s n|s n]; cbn [type_counted type_scalar] in *.
  - destruct (sealed s) eqn:Es; [apply total_in_set; try assumption; cbn [type_scalar]; apply sealed_in_set; assumption|].
    unfold sealed in Es. apply negb_false_iff in Es. unfold total_length. cbn [implicit_bits]. rewrite Es. destruct s as [m|p]; cbn [scalar_delimited] in Es; [|discriminate].
    cbn [enc_body enc_scalar]. rewrite Es, app_length, bits_of_length. apply den_concat2. eexists _, 32. split; [apply (H Ws C v F)|]. split; [apply den_single; reflexivity|]. lia.
  - apply andb_true_iff in C as (C1 & C2). apply total_in_set; try assumption; [|exact I]. cbn [type_scalar]. apply sealed_in_set; assumption.
  - apply andb_true_iff in C as (C1 & C2). apply total_in_set; try assumption; [|exact I]. cbn [type_scalar]. apply sealed_in_set; assumption.
Qed.
Definition at_pos (before : option operator) (p : nat) : Prop := match before with None => p = O | Some l => den l (N.of_nat p) end.
Lemma at_pos_den before p : at_pos before p -> den (match before with None => bls_single 0 | Some l => l end) (N.of_nat p).
Proof. destruct before; cbn [at_pos]; [tauto|]. intros ->. apply den_single. reflexivity. Qed.
Lemma at_pos_padding before bits p : at_pos before p -> at_pos (Some (add_member bit_length before (MPadding bits))) (p + bits).
Proof.
  intro H. cbn [at_pos add_member]. destruct before as [l|]; [|apply den_single; cbn [at_pos] in H; lia]. apply den_concat2. eexists _, _. split; [exact H|]. split; [apply den_single; reflexivity|]. lia.
Qed.
Lemma at_pos_data before t p n : at_pos before p -> den (total_length bit_length t) (N.of_nat n) -> (has_composite t = true -> (n mod 8 = 0)%nat) ->
  at_pos (Some (add_member bit_length before (MData t))) (p + length (enc_align p t) + n).
Proof.
  intros H D M. apply at_pos_den in H. cbn [at_pos add_member bls_pad bls_concatenate]. rewrite type_alignment_cases. destruct (has_composite t) eqn:Ec.
  - rewrite enc_align_composite by assumption. specialize (M eq_refl). apply den_pad8_keep; [|pose proof (pad8_length p); lia]. apply den_concat2. eexists _, _.
    split; [apply den_pad8_intro, H|]. split; [exact D|]. lia.
  - rewrite enc_align_primitive by assumption. apply den_pad1. apply den_concat2. eexists _, _. split; [apply den_pad1, H|]. split; [exact D|]. cbn [length]. lia.
Qed.
Lemma members_in_set fs : Forall (member_all message_in_set) fs -> Forall (fun f => member_wf wf f = true) fs ->
  Forall (fun f => match f with MPadding _ => true | MData t => type_counted counted t end = true) fs ->
  forall before p vs, at_pos before p -> members_fit prim_fits (fun _ _ => true) fits fs vs = true ->
  den (struct_length bit_length before fs) (N.of_nat (p + length (enc_members enc p fs vs))).
Proof.
  induction 1 as [|f fs Hf _ IH]; intros W C before p vs Hp F; cbn [struct_length enc_members].
  - cbn [length]. rewrite Nat.add_0_r. apply at_pos_den, Hp.
  - inversion W as [|? ? W1 W2]; subst. inversion C as [|? ? C1 C2]; subst. destruct f as [bits|t].
    + cbn [members_fit] in F. specialize (IH W2 C2 _ _ vs (at_pos_padding before bits p Hp) F). rewrite app_length, repeat_length. rewrite Nat.add_assoc. exact IH.
    + destruct vs as [|v vs]; [discriminate|]. cbn [members_fit] in F. apply andb_true_iff in F as (F1 & F2).
      pose proof (at_pos_data before t p _ Hp (counted_in_set t v Hf W1 C1 F1) (enc_body_mod t v)) as Hn.
      specialize (IH W2 C2 _ _ vs Hn F2). cbn zeta. unfold enc_type. rewrite !app_length. rewrite !Nat.add_assoc in *. exact IH.
Qed.
Lemma pad_in_set k bits : den k (N.of_nat (length bits)) -> den (Padding k 8) (N.of_nat (length (pad_to_byte bits))).
Proof. intro H. unfold pad_to_byte. rewrite app_length. apply den_pad8_intro, H. Qed.
Lemma union_in_set (r : list operator) : forall s i v, nth_error (s :: r) i = Some v -> forall n, den v n -> den (fold_left (fun a b => bls_unite a [b]) r s) n.
Proof.
  induction r as [|x r IH]; intros s i v E n D; cbn [fold_left].
  - destruct i as [|i]; cbn [nth_error] in E; [congruence|]. destruct i; discriminate.
  - assert (Hu : forall y, den s y \/ den x y -> den (bls_unite s [x]) y).
    { intros y Hy. unfold bls_unite. apply den_union. destruct Hy as [Hy|Hy]; [left; exact Hy|right; left; exact Hy]. }
    destruct i as [|[|i] ]; cbn [nth_error] in E.
    + apply (IH _ O _ eq_refl), Hu. left. congruence.
    + apply (IH _ O _ eq_refl), Hu. right. congruence.
    + apply (IH _ (S i) _ E), D.
Qed.
(** The tag has the same width in the calculation and in the specification. *)
Definition tag_ok (ts : list (rtype message)) : Prop := discriminant_bits (length ts) = N.of_nat (prefix_bits (N.of_nat (length ts) - 1)).
Lemma tag_width n : 1 <= n -> n < 2 ^ 31 -> n <> 2 ^ 8 -> n <> 2 ^ 16 -> prefix_bits (n - 1) = prefix_bits n.
Proof.
  intros H1 H2 H3 H4. unfold prefix_bits. replace (n - 1 <? 2 ^ 8) with (n <? 2 ^ 8); [|destruct (N.ltb_spec n (2 ^ 8)), (N.ltb_spec (n - 1) (2 ^ 8)); lia].
  replace (n - 1 <? 2 ^ 16) with (n <? 2 ^ 16); [|destruct (N.ltb_spec n (2 ^ 16)), (N.ltb_spec (n - 1) (2 ^ 16)); lia].
  destruct (n <? 2 ^ 8); [reflexivity|]. destruct (n <? 2 ^ 16); [reflexivity|].
  assert (2 ^ 31 < 2 ^ 32) by reflexivity. rewrite (proj2 (N.ltb_lt n (2 ^ 32))) by lia. rewrite (proj2 (N.ltb_lt (n - 1) (2 ^ 32))) by lia. reflexivity.
Qed.
Lemma tag_ok_intro d ts : wf (Message d (KUnion ts)) = true -> tag_right ts = true -> tag_ok ts.
Proof.
  intros W T. apply wf_union in W as (W1 & W2 & _). unfold tag_right in T. rewrite andb_true_iff, !negb_true_iff, !N.eqb_neq in T. destruct T as (T1 & T2).
  unfold tag_ok, discriminant_bits. pose proof pow31_64. rewrite array_length_bits_prefix by lia. rewrite tag_width by lia. reflexivity.
Qed.
Lemma pad8_aligned p : (p mod 8 = 0)%nat -> pad8 p = [].
Proof. intro H. unfold pad8. rewrite H. reflexivity. Qed.
Lemma enc_align_aligned p t : (p mod 8 = 0)%nat -> enc_align p t = [].
Proof. intro H. destruct (has_composite t) eqn:E; [rewrite enc_align_composite, pad8_aligned by assumption; reflexivity|apply enc_align_primitive, E]. Qed.
Lemma nth_error_Forall {A} (P : A -> Prop) l i x : Forall P l -> nth_error l i = Some x -> P x.
Proof. intros H E. rewrite Forall_forall in H. apply H. eapply nth_error_In, E. Qed.

Theorem lengths_in_set : forall m, message_in_set m.
Proof.
  apply message_ind'. intros d k H W C v F. cbn [enc bit_length bls_pad]. apply pad_in_set. destruct k as [fs|ts]; cbn [kind_all kind_length] in *.
  - unfold fits in F. cbn [fits_gen] in F. destruct v as [| | | | |vs|]; try discriminate. cbn [enc_kind]. cbn [counted] in C.
    apply (members_in_set fs H (wf_struct _ _ W) (proj2 (Forall_forall _ _) (proj1 (forallb_forall _ _) C)) None 0%nat vs eq_refl F).
  - unfold fits in F. cbn [fits_gen] in F. destruct v as [| | | | | |tag v]; try discriminate. cbn [enc_kind]. cbn [counted] in C. apply andb_true_iff in C as (CT & C).
    pose proof (tag_ok_intro _ _ W CT) as T. apply wf_union in W as (W1 & W2 & W3). rewrite pick_cases in F. rewrite pick_cases.
    destruct (nth_error ts tag) as [t|] eqn:E; [|discriminate]. pose proof (nth_error_Forall _ _ _ _ W3 E) as Wt.
    pose proof (nth_error_Forall _ _ _ _ H E) as Ht. pose proof (proj1 (forallb_forall _ _) C t (nth_error_In _ _ E)) as Ct.
    unfold union_length. rewrite app_length, bits_of_length. unfold enc_type. rewrite enc_align_aligned by apply prefix_bits_mod. rewrite app_nil_l.
    assert (Dt : den (type_size bit_length t) (N.of_nat (length (enc_body enc t v)))).
    { pose proof (type_wf_scalar _ _ Wt) as Ws. unfold type_all in Ht. assert (S : scalar_in_set (type_scalar t)).
      { destruct t as [s|s n|s n]; cbn [variant_counted type_scalar] in *; try discriminate; apply andb_true_iff in Ct as (C1 & C2); apply sealed_in_set; assumption. }
      destruct (type_in_set t v Wt S F) as (k & D & L). destruct t as [s|s n|s n]; cbn [variant_counted] in Ct; try discriminate; rewrite L, N.add_0_l; exact D. }
    apply den_concat2. eexists _, _. split; [apply den_single; reflexivity|]. split; [|rewrite Nat2N.inj_add; f_equal; symmetry; exact T].
    pose proof (map_nth_error (type_size bit_length) tag ts E) as Em. destruct (map (type_size bit_length) ts) as [|s r]; [destruct tag; discriminate|].
    apply (union_in_set r s tag _ Em), Dt.
Qed.

(** ** D: positions and the flags [always_aligned] *)
Definition at8 (before : option operator) (p : nat) : Prop :=
  match before with None => p = O | Some l => exists q, den l q /\ q mod 8 = N.of_nat p mod 8 end.
Lemma at8_den before p : at8 before p -> exists q, den (match before with None => bls_single 0 | Some l => l end) q /\ q mod 8 = N.of_nat p mod 8.
Proof. destruct before; cbn [at8]; [tauto|]. intros ->. exists 0. split; [apply den_single; reflexivity|reflexivity]. Qed.
Lemma at8_padding before bits p : at8 before p -> at8 (Some (add_member bit_length before (MPadding bits))) (p + bits).
Proof.
  intro H. cbn [at8 add_member]. destruct before as [l|].
  - cbn [at8] in H. destruct H as (q & Hq & Hm). exists (q + N.of_nat bits). split; [|lia]. apply den_concat2. eexists _, _. split; [exact Hq|]. split; [apply den_single; reflexivity|]. lia.
  - cbn [at8] in H. exists (N.of_nat bits). split; [apply den_single; reflexivity|]. f_equal. lia.
Qed.
Lemma at8_data before t p n : at8 before p -> (exists k, den (total_length bit_length t) k /\ k mod 8 = N.of_nat n mod 8) -> (has_composite t = true -> (n mod 8 = 0)%nat) ->
  at8 (Some (add_member bit_length before (MData t))) (p + length (enc_align p t) + n).
Proof.
  intros H (k & D & K) M. apply at8_den in H as (q & Hq & Hm). cbn [at8 add_member bls_pad bls_concatenate]. rewrite type_alignment_cases. destruct (has_composite t) eqn:Ec.
  - rewrite enc_align_composite by assumption. specialize (M eq_refl). pose proof (pad8_length p) as Hp.
    set (q1 := q + (8 - q mod 8) mod 8). assert (P : padded 8 q q1) by (unfold padded, q1; lia). exists (q1 + k). split; [|unfold q1; lia].
    cbn [den]. exists (q1 + k). split; [|unfold padded, q1; lia]. apply den_concat2. eexists _, _. split; [exists q; split; [exact Hq|exact P]|]. split; [exact D|reflexivity].
  - rewrite enc_align_primitive by assumption. exists (q + k). split; [|cbn [length]; lia]. apply den_pad1. apply den_concat2. eexists _, _. split; [apply den_pad1, Hq|]. split; [exact D|reflexivity].
Qed.
Lemma bit_length_mod m n : den (bit_length m) n -> n mod 8 = 0.
Proof. destruct m as [d k]. cbn [bit_length]. apply den_pad8_mod. Qed.
Lemma total_mod8 ns : Forall (fun n => n mod 8 = 0) ns -> total ns mod 8 = 0.
Proof. induction 1; [reflexivity|]. rewrite total_cons. lia. Qed.
Lemma composite_size_mod t n : has_composite t = true -> den (type_size bit_length t) n -> n mod 8 = 0.
Proof.
  unfold has_composite. intros H D. destruct t as [s|s k|s k]; cbn [type_scalar] in H; destruct s as [m|p]; try discriminate; cbn [type_size scalar_size] in D; [apply bit_length_mod with m, D| |];
    destruct D as (ns & _ & D & ->); apply total_mod8; (eapply Forall_impl; [|exact D]; intros a; apply bit_length_mod).
Qed.
Lemma array_bits_mod n : n < 2 ^ 64 -> array_length_bits n mod 8 = 0.
Proof. intro H. rewrite array_length_bits_prefix by assumption. pose proof (prefix_bits_mod n). lia. Qed.
Lemma total8 t v : type_wf wf t = true -> bls_ok (total_length bit_length t) -> type_fits prim_fits (fun _ _ => true) fits t v = true ->
  exists k, den (total_length bit_length t) k /\ k mod 8 = N.of_nat (length (enc_body enc t v)) mod 8.
Proof.
  intros W B F. destruct (has_composite t) eqn:Ec.
  - destruct (den_inhabited _ B) as (k & D). exists k. split; [assumption|]. pose proof (enc_body_mod t v Ec) as E. transitivity 0; [|lia].
    unfold total_length in D. destruct (implicit_bits t) as [b|] eqn:Ei; [|apply composite_size_mod with t; assumption]. apply den_concat2 in D as (x & y & Dx & Dy & ->).
    apply composite_size_mod in Dx; [|assumption]. apply den_single in Dy. subst y. enough (b mod 8 = 0) by lia.
    destruct t as [s|s n|s n]; cbn [implicit_bits] in Ei; [destruct (scalar_delimited s); [|discriminate]|discriminate|]; [replace b with 32 by congruence; reflexivity|].
    replace b with (array_length_bits n) by congruence. apply array_bits_mod. apply variable_wf in W. assumption.
  - eexists. split; [|reflexivity]. unfold has_composite in Ec. destruct (type_scalar t) as [m|p] eqn:Es; [discriminate|].
    apply total_in_set; try assumption; [rewrite Es; apply prim_in_set|]. destruct t; try exact I. cbn [type_scalar] in Es. subst. reflexivity.
Qed.
Lemma aligned_flag before p : always_aligned before = true -> ok_opt before -> nice_opt before -> at8 before p -> (p mod 8 = 0)%nat.
Proof.
  destruct before as [l|]; cbn [always_aligned ok_opt nice_opt at8]; intros H B N8 A; [|subst; reflexivity]. destruct N8 as (S & C).
  destruct A as (q & Hq & Hm). destruct (C43_byte_aligned_partial l B S C) as (b & Eb & Hb). rewrite Eb in H. subst b. pose proof (proj1 Hb eq_refl q Hq). lia.
Qed.

(** ** B: [size_bits] *)
Lemma fixed_size_den o n : bls_ok o -> fixed_size o = Some n -> forall v, den o v -> v = n.
Proof.
  unfold fixed_size, bls_min_value, bls_max_value. intros B E v D. destruct (op_min_spec o B) as (a & Ea & _ & Ha). destruct (op_max_spec o B) as (b & Eb & _ & Hb).
  rewrite Ea, Eb in E. destruct (N.eqb_spec a b); [|discriminate]. specialize (Ha v D). specialize (Hb v D). assert (a = n) by congruence. lia.
Qed.
Lemma next_multiple_8 n : next_multiple_of n 8 = ((n + 7) / 8 * 8)%nat.
Proof. reflexivity. Qed.
Lemma next_multiple_of_8 n : (n mod 8 = 0)%nat -> next_multiple_of n 8 = n.
Proof. intro H. rewrite next_multiple_8. lia. Qed.
Lemma next_multiple_of_1 n : next_multiple_of n 1 = n.
Proof. unfold next_multiple_of. rewrite Nat.div_1_r. lia. Qed.
Lemma next_multiple_pad n : next_multiple_of n 8 = (n + length (pad8 n))%nat.
Proof. rewrite next_multiple_8, pad8_length. lia. Qed.

Definition sized (m : message) : Prop :=
  wf m = true -> bls_ok (bit_length m) -> good m = true -> forall v, fits m v = true -> next_multiple_of (size_bits m v) 8 = length (enc m v).
Lemma size_bits_fixed m v n : fixed_size (bit_length m) = Some n -> size_bits m v = N.to_nat n.
Proof. intro E. destruct m as [d k]. cbn [size_bits]. rewrite E. reflexivity. Qed.
Lemma scalar_size_expr_eq m v : scalar_size_expr size_bits (SComposite m) v = (header_bits (SComposite m) + next_multiple_of (size_bits m v) 8)%nat.
Proof. cbn [scalar_size_expr]. destruct (fixed_size (bit_length m)) as [n|] eqn:E; [rewrite (size_bits_fixed m v n E)|]; reflexivity. Qed.
Definition scalar_sized (s : scalar message) : Prop := forall v, scalar_fits prim_fits fits s v = true -> scalar_size_expr size_bits s v = length (enc_scalar enc s v).
Lemma scalar_sized_intro s : scalar_all sized s -> scalar_wf wf s = true -> scalar_all (fun m => bls_ok (bit_length m)) s -> scalar_deep good s = true -> scalar_sized s.
Proof.
  destruct s as [m|p]; cbn [scalar_all scalar_wf scalar_deep]; intros H W B G v F.
  - rewrite scalar_size_expr_eq, (H W B G v F). cbn [enc_scalar]. unfold header_bits. cbn [scalar_delimited]. rewrite app_length. destruct (delimited m); [rewrite bits_of_length|]; reflexivity.
  - cbn [scalar_size_expr enc_scalar]. symmetry. apply enc_prim_length, F.
Qed.
Lemma sum_sized s vs : scalar_sized s -> Forall (fun x => scalar_fits prim_fits fits s x = true) vs ->
  fold_right (fun v sum => scalar_size_expr size_bits s v + sum)%nat O vs = length (flat_map (enc_scalar enc s) vs).
Proof. intros H. induction 1 as [|x vs Hx _ IH]; [reflexivity|]. cbn [fold_right flat_map]. rewrite app_length, <- IH, H by assumption. reflexivity. Qed.
Lemma const_sized s n vs : scalar_sized s -> Forall (fun x => scalar_fits prim_fits fits s x = true) vs -> fixed_size (scalar_size bit_length s) = Some n ->
  (length vs * next_multiple_of (header_bits s + N.to_nat n) (N.to_nat (scalar_alignment s)))%nat = length (flat_map (enc_scalar enc s) vs).
Proof.
  intros H F E. rewrite <- (sum_sized s vs H F). clear F H. induction vs as [|x vs IH]; [reflexivity|]. cbn [length fold_right]. rewrite <- IH, Nat.mul_succ_l, Nat.add_comm. f_equal.
  destruct s as [m|p]; cbn [scalar_alignment scalar_size] in *.
  - rewrite scalar_size_expr_eq, (size_bits_fixed m x n E). change (N.to_nat 8) with 8%nat. unfold header_bits. cbn [scalar_delimited]. rewrite !next_multiple_8. destruct (delimited m); lia.
  - change (N.to_nat 1) with 1%nat. rewrite next_multiple_of_1. cbn [scalar_size_expr header_bits scalar_delimited]. unfold fixed_size in E. cbn [bls_single bls_min_value bls_max_value op_min op_max set_min set_max rev app] in E.
    rewrite N.eqb_refl in E. replace n with (N.of_nat (prim_bits p)) by congruence. unfold header_bits. cbn [scalar_delimited]. lia.
Qed.
Lemma elements_sized s v : scalar_sized s -> Forall (fun x => scalar_fits prim_fits fits s x = true) (array_items v) ->
  elements_size_expr size_bits s v = length (flat_map (enc_scalar enc s) (array_items v)).
Proof.
  intros H F. unfold elements_size_expr. change (match v with VArray vs => vs | VBits bits => map VBool bits | _ => [] end) with (array_items v).
  destruct (fixed_size (scalar_size bit_length s)) as [n|] eqn:E; [apply const_sized; assumption|apply sum_sized; assumption].
Qed.
Lemma type_sized t v : type_wf wf t = true -> scalar_sized (type_scalar t) -> type_fits prim_fits (fun _ _ => true) fits t v = true ->
  field_size_expr size_bits t v = length (enc_body enc t v).
Proof.
  intros W H F. destruct t as [s|s n|s n]; cbn [type_scalar field_size_expr enc_body] in *; [apply H, F| |].
  - apply elements_sized; [assumption|]. apply (type_fits_fixed _ _ _ _ _ _ fits_bool F).
  - rewrite app_length, bits_of_length, elements_sized; [|assumption|apply (type_fits_variable _ _ _ _ _ _ fits_bool F)]. rewrite array_length_bits_prefix by (apply variable_wf in W; assumption). lia.
Qed.

(** Members with their positions. *)
Lemma ok_member_total before t : bls_ok (add_member bit_length before (MData t)) -> bls_ok (total_length bit_length t).
Proof. cbn [add_member]. intro H. apply ok_pad, ok_concat2 in H. apply H. Qed.
Lemma ok_struct_add before f fs : bls_ok (struct_length bit_length before (f :: fs)) -> bls_ok (add_member bit_length before f).
Proof. cbn [struct_length]. intro H. apply ok_struct in H. apply H. Qed.
Lemma at8_next before t p v : at8 before p -> type_wf wf t = true -> bls_ok (total_length bit_length t) -> type_fits prim_fits (fun _ _ => true) fits t v = true ->
  at8 (Some (add_member bit_length before (MData t))) (p + length (enc_type enc p t v)).
Proof. intros A W B F. unfold enc_type. rewrite app_length, Nat.add_assoc. apply at8_data; [assumption|apply total8; assumption|apply enc_body_mod]. Qed.

Definition flags_ok (sel : rtype message -> bool) (before : option operator) (fs : list (member message)) : Prop :=
  forallb (fun x => match x with (flag, MData t) => implb (sel t) flag | (_, MPadding _) => true end) (with_flags before fs) = true.
Lemma flags_data sel before t fs : flags_ok sel before (MData t :: fs) -> (sel t = true -> always_aligned before = true) /\ flags_ok sel (Some (add_member bit_length before (MData t))) fs.
Proof. unfold flags_ok. cbn [with_flags forallb]. rewrite andb_true_iff. intros (H1 & H2). split; [|assumption]. intro S. rewrite S in H1. exact H1. Qed.
Lemma flags_padding sel before bits fs : flags_ok sel before (MPadding bits :: fs) -> flags_ok sel (Some (add_member bit_length before (MPadding bits))) fs.
Proof. unfold flags_ok. cbn [with_flags forallb]. tauto. Qed.

Lemma members_sized fs : Forall (member_all sized) fs -> Forall (fun f => member_wf wf f = true) fs -> Forall (fun f => member_deep good f = true) fs ->
  forall before p vs, at8 before p -> nice_opt before -> flags_ok has_composite before fs -> bls_ok (struct_length bit_length before fs) ->
  members_fit prim_fits (fun _ _ => true) fits fs vs = true ->
  struct_size_expr size_bits fs vs = length (enc_members enc p fs vs).
Proof.
  induction 1 as [|f fs Hf _ IH]; intros W G before p vs A N8 Fl B F; cbn [struct_size_expr enc_members]; [reflexivity|].
  inversion W as [|? ? W1 W2]; subst. inversion G as [|? ? G1 G2]; subst. pose proof (ok_struct_add _ _ _ B) as Ba. pose proof (ok_add _ _ _ Ba) as (Bb & Bm). destruct f as [bits|t].
  - cbn [members_fit] in F. rewrite app_length, repeat_length. f_equal.
    apply (IH W2 G2 _ (p + bits)%nat vs (at8_padding before bits p A) (nice_add' before _ N8) (flags_padding _ _ _ _ Fl) B F).
  - destruct vs as [|v vs]; [discriminate|]. cbn [members_fit] in F. apply andb_true_iff in F as (F1 & F2). apply flags_data in Fl as (Fl1 & Fl2). cbn zeta. rewrite app_length.
    pose proof (ok_member_total _ _ Ba) as Bt. f_equal.
    + unfold enc_type. rewrite app_length, (type_sized t v W1).
      * destruct (has_composite t) eqn:Ec; [|rewrite enc_align_primitive by assumption; reflexivity]. rewrite enc_align_aligned; [reflexivity|]. apply (aligned_flag before); auto.
      * apply scalar_sized_intro; [exact Hf|apply type_wf_scalar, W1|exact Bm|exact G1].
      * assumption.
    + apply (IH W2 G2 _ _ vs (at8_next before t p v A W1 Bt F1) (nice_add' before _ N8) Fl2 B F2).
Qed.
Lemma Forall_of_forallb {A} (f : A -> bool) l : forallb f l = true -> Forall (fun x => f x = true) l.
Proof. intro H. apply Forall_forall, forallb_forall, H. Qed.

Theorem sizes_right : forall m, sized m.
Proof.
  apply message_ind'. intros d k H W B G v F. destruct (fixed_size (bit_length (Message d k))) as [n|] eqn:E.
  - assert (C : counted (Message d k) = true).
    { cbn [good] in G. apply andb_true_iff in G as (G & _). unfold good_here in G. rewrite E in G. apply andb_true_iff in G. apply G. }
    pose proof (lengths_in_set _ W C v F) as D. pose proof (fixed_size_den _ _ B E _ D) as L. rewrite (size_bits_fixed _ _ _ E). rewrite <- L, Nat2N.id. apply next_multiple_of_8, enc_mod.
  - rewrite enc_content. unfold pad_to_byte. rewrite app_length. pose proof (ok_kind _ _ _ eq_refl B) as Bk. cbn [good] in G. apply andb_true_iff in G as (G1 & G2). unfold good_here in G1. rewrite E in G1.
    enough (L : size_bits (Message d k) v = length (content (Message d k) v)) by (rewrite L; apply next_multiple_pad).
    cbn [size_bits content]. rewrite E. unfold fits in F. cbn [fits_gen] in F. destruct k as [fs|ts].
    + destruct v as [| | | | |vs|]; try discriminate. cbn [enc_kind]. cbn [kind_all kind_deep] in *. apply andb_true_iff in G1 as (G1 & _). cbn [bit_length kind_length] in B. apply ok_pad in B.
      apply (members_sized fs H (wf_struct _ _ W) (Forall_of_forallb _ _ G2) None O vs eq_refl I G1 B F).
    + destruct v as [| | | | | |tag v]; try discriminate. cbn [enc_kind]. cbn [kind_all kind_deep] in *. pose proof (tag_ok_intro _ _ W G1) as T. apply wf_union in W as (W1 & W2 & W3).
      rewrite pick_cases in F. rewrite !pick_cases. destruct (nth_error ts tag) as [t|] eqn:Et; [|discriminate]. pose proof (nth_error_Forall _ _ _ _ W3 Et) as Wt.
      rewrite app_length, bits_of_length. unfold tag_ok in T. rewrite T, Nat2N.id. f_equal. unfold enc_type. rewrite enc_align_aligned by apply prefix_bits_mod. cbn [app].
      apply type_sized; [assumption| |assumption]. pose proof (Forall_of_forallb _ _ G2) as G3. apply scalar_sized_intro; [apply (nth_error_Forall _ _ _ _ H Et)|apply type_wf_scalar, Wt|apply (nth_error_Forall _ _ _ _ Bk Et)|apply (nth_error_Forall _ _ _ _ G3 Et)].
Qed.
