(** Lengths of encodings, the calculated bit length sets and the flags [always_aligned]. *)
From Verif Require Import Base BitLemmas EncModel EncSpec EncWriteProofs BlsModel BlsSpec BlsProofs BlsProps GenModel GenSpec.
Ltac Zify.zify_post_hook ::= Z.div_mod_to_equations.

(** ** Induction over types *)
Definition scalar_all (P : message -> Prop) (s : scalar message) : Prop := match s with SComposite m => P m | SPrimitive _ => True end.
Definition type_all (P : message -> Prop) (t : rtype message) : Prop := scalar_all P (type_scalar t).
Definition member_all (P : message -> Prop) (f : member message) : Prop := match f with MPadding _ => True | MData t => type_all P t end.
Definition kind_all (P : message -> Prop) (k : kind message) : Prop :=
  match k with KStruct fs => Forall (member_all P) fs | KUnion ts => Forall (type_all P) ts end.
Lemma message_ind' (P : message -> Prop) : (forall d k, kind_all P k -> P (Message d k)) -> forall m, P m.
Proof.
  intro H. fix IH 1. intros [d k]. apply H. destruct k as [fs|ts]; cbn [kind_all].
  - induction fs as [|f fs IHf]; constructor; [|exact IHf]. destruct f as [bits|t]; [exact I|]. unfold member_all, type_all. destruct t as [s|s n|s n]; destruct s as [m|p]; cbn [type_scalar scalar_all]; try exact I; apply IH.
  - induction ts as [|t ts IHt]; constructor; [|exact IHt]. unfold type_all. destruct t as [s|s n|s n]; destruct s as [m|p]; cbn [type_scalar scalar_all]; try exact I; apply IH.
Qed.

(** ** Length prefixes *)

Lemma size_le n k : n < 2 ^ k -> N.size n <= k.
Proof. intro H. destruct (N.eq_0_gt_0_cases n) as [->|Hn]; [cbn; lia|]. rewrite N.size_log2 by lia. pose proof (N.log2_lt_pow2 n k Hn). lia. Qed.
Lemma size_ge n k : 2 ^ k <= n -> k < N.size n.
Proof. intro H. pose proof (N.pow_nonzero 2 k ltac:(lia)). rewrite N.size_log2 by lia. pose proof (N.log2_le_pow2 n k ltac:(lia)). lia. Qed.
Lemma array_length_bits_prefix n : n < 2 ^ 64 -> array_length_bits n = N.of_nat (prefix_bits n).
Proof.
  intro H. unfold array_length_bits, prefix_bits. pose proof (size_le n 64 H) as H64.
  destruct (N.ltb_spec n (2 ^ 8)) as [L8|L8]; [pose proof (size_le n 8 L8); replace (N.max (N.size n) 8) with 8 by lia; reflexivity|].
  pose proof (size_ge n 8 L8). replace (N.max (N.size n) 8) with (N.size n) by lia.
  destruct (N.ltb_spec n (2 ^ 16)) as [L16|L16]; [pose proof (size_le n 16 L16); rewrite (N.log2_up_unique (N.size n) 4); [reflexivity|lia|cbn; lia]|].
  pose proof (size_ge n 16 L16).
  destruct (N.ltb_spec n (2 ^ 32)) as [L32|L32]; [pose proof (size_le n 32 L32); rewrite (N.log2_up_unique (N.size n) 5); [reflexivity|lia|cbn; lia]|].
  pose proof (size_ge n 32 L32). rewrite (N.log2_up_unique (N.size n) 6); [reflexivity|lia|cbn; lia].
Qed.
Lemma prefix_bits_cases n : prefix_bits n = 8%nat \/ prefix_bits n = 16%nat \/ prefix_bits n = 32%nat \/ prefix_bits n = 64%nat.
Proof. unfold prefix_bits. destruct (n <? 2 ^ 8); [tauto|]. destruct (n <? 2 ^ 16); [tauto|]. destruct (n <? 2 ^ 32); tauto. Qed.
Lemma prefix_bits_mod n : (prefix_bits n mod 8 = 0)%nat.
Proof. destruct (prefix_bits_cases n) as [-> | [-> | [-> | ->] ] ]; reflexivity. Qed.
Lemma pow31_64 : 2 ^ 31 < 2 ^ 64.
Proof. apply N.pow_lt_mono_r; lia. Qed.

(** ** Values *)
Lemma type_fits_fixed okp okb ok s len v : (forall b, okp PBool (VBool b) = true) -> type_fits okp okb ok (TFixed s len) v = true ->
  N.of_nat (length (array_items v)) = len /\ Forall (fun x => scalar_fits okp ok s x = true) (array_items v).
Proof.
  intros Hb H. assert (Hbits : forall bits, Forall (fun x => scalar_fits okp ok (SPrimitive PBool) x = true) (map VBool bits)).
  { intro bits. apply Forall_forall. intros x Hx. apply in_map_iff in Hx as (b & <- & _). apply Hb. }
  destruct s as [m|p]; [|destruct p]; destruct v; cbn [type_fits array_items] in *; try discriminate; rewrite ?map_length;
    try (apply N.eqb_eq in H; split; [assumption|apply Hbits]); apply andb_true_iff in H as (H1 & H2); (split; [apply N.eqb_eq, H1|apply Forall_forall, forallb_forall, H2]).
Qed.
Lemma type_fits_variable okp okb ok s n v : (forall b, okp PBool (VBool b) = true) -> type_fits okp okb ok (TVariable s n) v = true ->
  N.of_nat (length (array_items v)) <= n /\ Forall (fun x => scalar_fits okp ok s x = true) (array_items v).
Proof.
  intros Hb H. assert (Hbits : forall bits, Forall (fun x => scalar_fits okp ok (SPrimitive PBool) x = true) (map VBool bits)).
  { intro bits. apply Forall_forall. intros x Hx. apply in_map_iff in Hx as (b & <- & _). apply Hb. }
  destruct s as [m|p]; [|destruct p]; destruct v; cbn [type_fits array_items] in *; try discriminate; rewrite ?map_length; apply andb_true_iff in H as (H1 & H2);
    (split; [apply N.leb_le, H1|first [apply Hbits|apply Forall_forall, forallb_forall, H2]]).
Qed.
Lemma fits_bool b : prim_fits PBool (VBool b) = true.
Proof. reflexivity. Qed.

Lemma enc_prim_length p v : prim_fits p v = true -> length (enc_prim p v) = prim_bits p.
Proof. destruct p, v; cbn [prim_fits enc_prim]; intro H; try discriminate; rewrite ?bits_of_length; reflexivity. Qed.

Lemma pad_to_byte_mod bits : (length (pad_to_byte bits) mod 8 = 0)%nat.
Proof. unfold pad_to_byte. rewrite app_length, pad8_length. lia. Qed.
Lemma enc_mod m v : (length (enc m v) mod 8 = 0)%nat.
Proof. destruct m as [d k]. cbn [enc]. apply pad_to_byte_mod. Qed.
Lemma enc_content m v : enc m v = pad_to_byte (content m v).
Proof. destruct m; reflexivity. Qed.

Lemma flat_map_mod {A} (f : A -> list bool) l : (forall x, In x l -> (length (f x) mod 8 = 0)%nat) -> (length (flat_map f l) mod 8 = 0)%nat.
Proof.
  induction l as [|x l IH]; intro H; [reflexivity|]. cbn [flat_map]. rewrite app_length. pose proof (H x (or_introl eq_refl)). pose proof (IH (fun y Hy => H y (or_intror Hy))). lia.
Qed.
Lemma enc_composite_mod m v : (length (enc_scalar enc (SComposite m) v) mod 8 = 0)%nat.
Proof. cbn [enc_scalar]. rewrite app_length. pose proof (enc_mod m v). destruct (delimited m); [rewrite bits_of_length|cbn [length]]; lia. Qed.
Lemma enc_body_mod t v : has_composite t = true -> (length (enc_body enc t v) mod 8 = 0)%nat.
Proof.
  unfold has_composite. destruct t as [s|s n|s n]; cbn [type_scalar enc_body]; destruct s as [m|p]; try discriminate; intros _.
  - apply enc_composite_mod.
  - apply flat_map_mod. intros x _. apply enc_composite_mod.
  - rewrite app_length, bits_of_length. pose proof (flat_map_mod (enc_scalar enc (SComposite m)) (array_items v) (fun x _ => enc_composite_mod m x)). pose proof (prefix_bits_mod n). lia.
Qed.
Lemma enc_align_composite p t : has_composite t = true -> enc_align p t = pad8 p.
Proof. destruct t as [s|s n|s n]; destruct s; cbn; intro; try discriminate; reflexivity. Qed.
Lemma enc_align_primitive p t : has_composite t = false -> enc_align p t = [].
Proof. destruct t as [s|s n|s n]; destruct s; cbn; intro; try discriminate; reflexivity. Qed.
Lemma type_alignment_cases t : type_alignment t = if has_composite t then 8 else 1.
Proof. unfold type_alignment, has_composite. destruct (type_scalar t); reflexivity. Qed.

(** ** Bit length sets *)
Lemma den_concat2 a b v : den (Concatenate [a; b]) v <-> exists x y, den a x /\ den b y /\ v = x + y.
Proof.
  rewrite den_concat. split.
  - intros (vs & H & ->). inversion H as [|? x ? l Hx H1]; subst. inversion H1 as [|? y ? l' Hy H2]; subst. inversion H2; subst. exists x, y. split; [assumption|]. split; [assumption|]. cbn [total fold_right]. lia.
  - intros (x & y & Hx & Hy & ->). exists [x; y]. split; [repeat constructor; assumption|]. cbn [total fold_right]. lia.
Qed.
Lemma den_pad1 a v : den (Padding a 1) v <-> den a v.
Proof.
  cbn [den]. split.
  - intros (u & H & H1 & H2 & _). replace v with u by lia. assumption.
  - intro H. exists v. split; [assumption|]. unfold padded. rewrite N.mod_1_r. lia.
Qed.
Lemma den_pad8_mod a v : den (Padding a 8) v -> v mod 8 = 0.
Proof. intros (u & _ & _ & _ & H). exact H. Qed.
Lemma den_pad8_intro a p : den a (N.of_nat p) -> den (Padding a 8) (N.of_nat (p + length (pad8 p))).
Proof. intro H. cbn [den]. exists (N.of_nat p). split; [assumption|]. unfold padded. rewrite pad8_length. lia. Qed.
Lemma den_pad8_keep a p : den a (N.of_nat p) -> (p mod 8 = 0)%nat -> den (Padding a 8) (N.of_nat p).
Proof. intros H Hp. cbn [den]. exists (N.of_nat p). split; [assumption|]. unfold padded. lia. Qed.
Lemma den_single x v : den (bls_single x) v <-> v = x.
Proof. unfold bls_single. apply single_den. Qed.

(** *** Everything the frontend builds is small and compatible with 8. *)
Definition nice (o : operator) : Prop := bls_small o /\ compatible 8 o.
Lemma nice_single x : nice (bls_single x).
Proof. split; exact I. Qed.
Lemma nice_concat2 a b : nice a -> nice b -> nice (Concatenate [a; b]).
Proof. intros (A1 & A2) (B1 & B2). split; cbn [bls_small compatible length]; [split; [reflexivity|tauto]|tauto]. Qed.
Lemma nice_union2 a b : nice a -> nice b -> nice (Union [a; b]).
Proof. intros (A1 & A2) (B1 & B2). split; cbn [bls_small compatible length]; [split; [reflexivity|tauto]|tauto]. Qed.
Lemma nice_pad o t : nice o -> nice (Padding o (type_alignment t)).
Proof. intros (A & B). split; cbn [bls_small compatible]; [assumption|]. split; [assumption|]. rewrite type_alignment_cases. left. destruct (has_composite t); [apply N.divide_refl|apply N.divide_1_l]. Qed.
Lemma nice_type bl t : type_all (fun m => nice (bl m)) t -> nice (type_size bl t).
Proof.
  unfold type_all. assert (Hs : forall s, scalar_all (fun m => nice (bl m)) s -> nice (scalar_size bl s)) by (intros [m|p] H; [exact H|apply nice_single]).
  destruct t as [s|s n|s n]; cbn [type_scalar type_size]; intro H; [apply Hs, H| |]; destruct (Hs s H); split; assumption.
Qed.
Lemma nice_total bl t : type_all (fun m => nice (bl m)) t -> nice (total_length bl t).
Proof. intro H. unfold total_length. pose proof (nice_type bl t H). destruct (implicit_bits t); [apply nice_concat2; [assumption|apply nice_single]|assumption]. Qed.
Definition nice_opt (o : option operator) : Prop := match o with None => True | Some l => nice l end.
Lemma nice_add bl before f : member_all (fun m => nice (bl m)) f -> nice_opt before -> nice (add_member bl before f).
Proof.
  intros H Hb. destruct f as [bits|t]; cbn [add_member].
  - destruct before; [apply nice_concat2; [assumption|apply nice_single]|apply nice_single].
  - apply nice_pad, nice_concat2; [apply nice_pad; destruct before; [assumption|apply nice_single]|apply nice_total, H].
Qed.
Lemma nice_struct bl fs : Forall (member_all (fun m => nice (bl m))) fs -> forall before, nice_opt before -> nice (struct_length bl before fs).
Proof.
  induction 1 as [|f fs Hf _ IH]; intros before Hb; cbn [struct_length]; [destruct before; [assumption|apply nice_single]|]. apply IH. apply nice_add; assumption.
Qed.
Lemma nice_bit_length : forall m, nice (bit_length m).
Proof.
  apply message_ind'. intros d k H. cbn [bit_length]. assert (Hk : nice (kind_length bit_length k)).
  { destruct k as [fs|ts]; cbn [kind_length kind_all] in *; [apply nice_struct; [assumption|exact I]|].
    unfold union_length. apply nice_concat2; [apply nice_single|].
    assert (Hm : Forall nice (map (type_size bit_length) ts)) by (apply Forall_map; apply Forall_forall; rewrite Forall_forall in H; intros t Ht; apply nice_type, H, Ht).
    destruct (map (type_size bit_length) ts) as [|s r]; [apply nice_single|]. inversion Hm as [|? ? Hs Hr]; subst. clear - Hs Hr. revert s Hs. induction Hr as [|x r Hx _ IH]; intros s Hs; [assumption|]. cbn [fold_left]. apply IH. apply nice_union2; assumption. }
  destruct Hk as (A & B). split; cbn [bls_pad bls_small compatible]; [assumption|]. split; [assumption|]. left. apply N.divide_refl.
Qed.
Lemma nice_members fs : Forall (member_all (fun m => nice (bit_length m))) fs.
Proof. apply Forall_forall. intros [bits|t] _; [exact I|]. unfold member_all, type_all. destruct (type_scalar t); [apply nice_bit_length|exact I]. Qed.
Lemma nice_add' before f : nice_opt before -> nice (add_member bit_length before f).
Proof. intro H. apply nice_add; [|assumption]. pose proof (nice_members [f]) as H1. inversion H1; assumption. Qed.

(** *** Parts of a set that is small enough. *)
Lemma ok_concat2 a b : bls_ok (Concatenate [a; b]) -> bls_ok a /\ bls_ok b.
Proof. intro H. destruct (bls_ok_children _ (or_introl H)) as (_ & HF). inversion HF as [|? ? Ha HF']; subst. inversion HF'; subst. tauto. Qed.
Lemma ok_union2 a b : bls_ok (Union [a; b]) -> bls_ok a /\ bls_ok b.
Proof. intro H. destruct (bls_ok_children _ (or_intror H)) as (_ & HF). inversion HF as [|? ? Ha HF']; subst. inversion HF'; subst. tauto. Qed.
Lemma ok_pad o a : bls_ok (Padding o a) -> bls_ok o.
Proof. intros (_ & H & _). exact H. Qed.
Definition ok_opt (o : option operator) : Prop := match o with None => True | Some l => bls_ok l end.
Lemma ok_total bl t : bls_ok (total_length bl t) -> bls_ok (type_size bl t).
Proof. unfold total_length. destruct (implicit_bits t); intro H; [apply ok_concat2 in H; apply H|exact H]. Qed.
Lemma ok_type bl t : bls_ok (type_size bl t) -> scalar_all (fun m => bls_ok (bl m)) (type_scalar t).
Proof. destruct t as [s|s n|s n]; cbn [type_size type_scalar]; destruct s as [m|p]; cbn [scalar_size scalar_all]; intro H; try exact I; [assumption| |]; destruct H as (_ & H & _); exact H. Qed.
Lemma ok_add before f bl : bls_ok (add_member bl before f) -> ok_opt before /\ member_all (fun m => bls_ok (bl m)) f.
Proof.
  destruct f as [bits|t]; cbn [add_member member_all].
  - destruct before as [l|]; cbn [ok_opt]; [|tauto]. intro H. apply ok_concat2 in H. tauto.
  - intro H. apply ok_pad, ok_concat2 in H as (H1 & H2). split; [|apply ok_type, ok_total, H2]. apply ok_pad in H1. destruct before; [assumption|exact I].
Qed.
Lemma ok_struct bl fs : forall before, bls_ok (struct_length bl before fs) -> ok_opt before /\ Forall (member_all (fun m => bls_ok (bl m))) fs.
Proof.
  induction fs as [|f fs IH]; intros before H; cbn [struct_length] in H.
  - split; [destruct before; [assumption|exact I]|constructor].
  - apply IH in H as (H1 & H2). apply ok_add in H1 as (H3 & H4). split; [assumption|]. constructor; assumption.
Qed.
Lemma ok_union_length bl ts : bls_ok (union_length bl ts) -> Forall (fun t => bls_ok (type_size bl t)) ts.
Proof.
  intro H. unfold union_length in H. apply ok_concat2 in H as (_ & H). apply Forall_map. destruct (map (type_size bl) ts) as [|s r]; [constructor|].
  revert s H. induction r as [|x r IH]; intros s H; cbn [fold_left] in H; [constructor; [assumption|constructor]|].
  apply IH in H. inversion H as [|? ? H1 H2]; subst. apply ok_union2 in H1 as (H3 & H4). constructor; [assumption|]. constructor; assumption.
Qed.
Lemma ok_kind m d k : m = Message d k -> bls_ok (bit_length m) -> kind_all (fun m => bls_ok (bit_length m)) k.
Proof.
  intros -> H. cbn [bit_length] in H. apply ok_pad in H. destruct k as [fs|ts]; cbn [kind_length kind_all] in *; [apply ok_struct in H; apply H|].
  apply ok_union_length in H. eapply Forall_impl; [|exact H]. intros t Ht. apply ok_type, Ht.
Qed.

(** ** Lengths of primitive parts *)
Lemma total_len_prim p vs : Forall (fun x => scalar_fits prim_fits fits (SPrimitive p) x = true) vs -> length (flat_map (enc_scalar enc (SPrimitive p)) vs) = (length vs * prim_bits p)%nat.
Proof.
  induction 1 as [|x vs Hx _ IH]; [reflexivity|]. cbn [flat_map length]. rewrite app_length, IH. cbn [enc_scalar]. rewrite enc_prim_length by exact Hx. lia.
Qed.

(** ** Overflow: if the maximum can be calculated, nothing overflows. *)
Fixpoint shaped (o : operator) : Prop :=
  match o with
  | Leaf values => is_set values /\ values <> [] /\ Forall (fun v => v < 2 ^ 64) values
  | Padding child a => shaped child /\ 0 < a < 2 ^ 32
  | Concatenate children | Union children =>
      children <> [] /\ (fix all (cs : list operator) : Prop := match cs with [] => True | c :: cs' => shaped c /\ all cs' end) children
  | Repeat child n | RangeRepeat child n => shaped child /\ n < 2 ^ 64
  end.
Lemma chk64_inv n m : chk64 n = Ok m -> m = n /\ n < 2 ^ 64.
Proof. unfold chk64. destruct (N.ltb_spec n (2 ^ 64)); [|discriminate]. intro E. split; [congruence|assumption]. Qed.
Lemma bindr_inv {A B} (x : res A) (f : A -> res B) b : bindr x f = Ok b -> exists a, x = Ok a /\ f a = Ok b.
Proof. destruct x; cbn [bindr]; [|discriminate]. eauto. Qed.
Lemma mapM_inv {A B} (f : A -> res B) l : forall r, mapM f l = Ok r -> Forall2 (fun x y => f x = Ok y) l r.
Proof.
  induction l as [|x l IH]; intros r H; cbn [mapM] in H; [replace r with (@nil B) by congruence; constructor|].
  apply bindr_inv in H as (y & Hy & H). apply bindr_inv in H as (ys & Hys & H). replace r with (y :: ys) by congruence. constructor; [assumption|]. apply IH, Hys.
Qed.
Lemma sum64_inv l : forall s r, fold_left (fun s x => bindr s (fun s => add64 s x)) l s = Ok r -> exists s0, s = Ok s0 /\ r = s0 + total l.
Proof.
  induction l as [|x l IH]; intros s r H; cbn [fold_left] in H; [exists r; split; [assumption|cbn; lia]|].
  apply IH in H as (s1 & H1 & ->). apply bindr_inv in H1 as (s0 & -> & H1). apply chk64_inv in H1 as (-> & _). exists s0. split; [reflexivity|]. rewrite total_cons. lia.
Qed.
Lemma sum64_bound l : forall s r, fold_left (fun s x => bindr s (fun s => add64 s x)) l s = Ok r -> (forall s0, s = Ok s0 -> s0 < 2 ^ 64) -> r < 2 ^ 64.
Proof.
  induction l as [|x l IH]; intros s r H Hs; cbn [fold_left] in H; [apply Hs, H|]. apply (IH _ _ H). intros s0 H0. apply bindr_inv in H0 as (s1 & -> & H1). apply chk64_inv in H1. lia.
Qed.
Lemma list_max_bound l m : list_max l = Ok m -> forall x, In x l -> x <= m.
Proof. destruct l as [|y l]; cbn [list_max]; [discriminate|]. intros E x Hx. replace m with (fold_left N.max l y) by congruence. apply (fold_max_spec l y), Hx. Qed.
Lemma list_max_In l m : list_max l = Ok m -> In m l.
Proof. destruct l as [|y l]; cbn [list_max]; [discriminate|]. intros E. replace m with (fold_left N.max l y) by congruence. apply (fold_max_spec l y). Qed.
Lemma op_max_ok : forall o, shaped o -> forall m, op_max o = Ok m -> bls_ok o /\ m < 2 ^ 64 /\ forall v, den o v -> v <= m.
Proof.
  assert (Hsum : forall cs, Forall (fun o => shaped o -> forall m, op_max o = Ok m -> bls_ok o /\ m < 2 ^ 64 /\ forall v, den o v -> v <= m) cs -> Forall shaped cs ->
            forall ms, mapM op_max cs = Ok ms -> Forall bls_ok cs /\ Forall (fun m => m < 2 ^ 64) ms /\ Forall2 (fun c m => forall v, den c v -> v <= m) cs ms).
  { intros cs Hcs Hsh ms E. apply mapM_inv in E. pose proof (Forall_mp _ _ _ Hcs Hsh) as H. clear Hcs Hsh.
    induction E as [|c m cs ms E _ IH]; [repeat constructor|]. inversion H as [|? ? H1 H2]; subst. destruct (IH H2) as (I1 & I2 & I3). destruct (H1 m E) as (J1 & J2 & J3). repeat split; constructor; assumption. }
  apply (op_rect' (fun o => shaped o -> forall m, op_max o = Ok m -> bls_ok o /\ m < 2 ^ 64 /\ forall v, den o v -> v <= m)).
  - intros values (S & Ne & B) m E. cbn [op_max] in E. destruct (set_max_spec values S Ne) as (m' & E' & I & Hm). replace m with m' by congruence. rewrite Forall_forall in B.
    split; [|split; [apply B, I|exact Hm]]. cbn [bls_ok]. split; [exact B|]. split; assumption.
  - intros c a IH (Sc & Ha) m E. cbn [op_max] in E. apply bindr_inv in E as (mc & Ec & E). destruct (IH Sc mc Ec) as (I1 & I2 & I3).
    unfold align_up in E. destruct (N.eqb_spec a 0); [lia|]. apply chk64_inv in E as (Em & Hlt). fold (alup a mc) in Em, Hlt. subst m.
    assert (B : forall v, den (Padding c a) v -> v <= alup a mc).
    { intros v (u & Hu & Hp). apply (padded_mono a u v mc (alup a mc)); [lia|assumption|apply alup_padded; lia|apply I3, Hu]. }
    split; [|split; assumption]. cbn [bls_ok]. split; [intros v Hv; pose proof (B v Hv); lia|]. split; [assumption|lia].
  - intros cs HI (Ne & Hsh) m E. apply all_iff in Hsh. cbn [op_max] in E. apply bindr_inv in E as (ms & Ems & E). destruct (Hsum cs HI Hsh ms Ems) as (I1 & I2 & I3).
    assert (Hm : m < 2 ^ 64) by (apply (sum64_bound _ _ _ E); intros s0 E0; replace s0 with 0 by congruence; reflexivity).
    apply sum64_inv in E as (s0 & E0 & Em). replace s0 with 0 in Em by congruence.
    assert (B : forall v, den (Concatenate cs) v -> v <= m).
    { intros v Hv. apply den_concat in Hv as (vs & Hvs & ->). pose proof (F2_total_hi cs ms I3 vs Hvs). lia. }
    split; [|split; assumption]. cbn [bls_ok]. split; [intros v Hv; pose proof (B v Hv); lia|]. split; [assumption|]. apply all_iff, I1.
  - intros c n IH (Sc & Hn) m E. cbn [op_max] in E. apply bindr_inv in E as (mc & Ec & E). destruct (IH Sc mc Ec) as (I1 & I2 & I3). apply chk64_inv in E as (-> & Hlt).
    assert (B : forall v, den (Repeat c n) v -> v <= mc * n).
    { intros v (vs & Hl & Hvs & ->). rewrite <- Hl. apply total_bound. eapply Forall_impl; [|exact Hvs]. exact I3. }
    split; [|split; assumption]. cbn [bls_ok]. split; [intros v Hv; pose proof (B v Hv); lia|]. split; assumption.
  - intros c n IH (Sc & Hn) m E. cbn [op_max] in E. apply bindr_inv in E as (mc & Ec & E). destruct (IH Sc mc Ec) as (I1 & I2 & I3). apply chk64_inv in E as (-> & Hlt).
    assert (B : forall v, den (RangeRepeat c n) v -> v <= mc * n).
    { intros v (vs & Hl & Hvs & ->). apply N.le_trans with (mc * N.of_nat (length vs)); [|apply N.mul_le_mono_l, Hl]. apply total_bound. eapply Forall_impl; [|exact Hvs]. exact I3. }
    split; [|split; assumption]. cbn [bls_ok]. split; [intros v Hv; pose proof (B v Hv); lia|]. split; assumption.
  - intros cs HI (Ne & Hsh) m E. apply all_iff in Hsh. cbn [op_max] in E. apply bindr_inv in E as (ms & Ems & E). destruct (Hsum cs HI Hsh ms Ems) as (I1 & I2 & I3).
    assert (Hm : m < 2 ^ 64) by (rewrite Forall_forall in I2; apply I2, list_max_In, E).
    assert (B : forall v, den (Union cs) v -> v <= m).
    { intros v Hv. apply den_union in Hv. apply Exists_exists in Hv as (c & Hc & Hv). destruct (Forall2_In_l _ _ _ _ I3 Hc) as (mc & Hmc & Hb). pose proof (list_max_bound ms m E mc Hmc). specialize (Hb v Hv). lia. }
    split; [|split; assumption]. cbn [bls_ok]. split; [intros v Hv; pose proof (B v Hv); lia|]. split; [assumption|]. apply all_iff, I1.
Qed.

Lemma shaped_single x : x < 2 ^ 64 -> shaped (bls_single x).
Proof. intro H. cbn [bls_single shaped]. split; [repeat constructor|]. split; [discriminate|]. repeat constructor; assumption. Qed.
Lemma shaped_concat2 a b : shaped a -> shaped b -> shaped (Concatenate [a; b]).
Proof. intros A B. cbn [shaped]. split; [discriminate|]. tauto. Qed.
Lemma small64 n : (n <= 64)%nat -> N.of_nat n < 2 ^ 64.
Proof. intro H. apply N.lt_trans with 100; [lia|reflexivity]. Qed.
Lemma prefix_small n : N.of_nat (prefix_bits n) < 2 ^ 64.
Proof. apply small64. destruct (prefix_bits_cases n) as [-> | [-> | [-> | ->] ] ]; lia. Qed.
Lemma type_wf_scalar w t : type_wf w t = true -> scalar_wf w (type_scalar t) = true.
Proof. destruct t; cbn [type_wf type_scalar]; rewrite ?andb_true_iff; tauto. Qed.
Lemma variable_wf w s n : type_wf w (TVariable s n) = true -> n < 2 ^ 64.
Proof. cbn [type_wf]. rewrite andb_true_iff, N.ltb_lt. intros (_ & H). pose proof pow31_64. lia. Qed.
Definition wf_all (k : kind message) : Prop := kind_all (fun m => wf m = true) k.
Lemma wf_type_all t : type_wf wf t = true -> type_all (fun m => wf m = true) t.
Proof. intro H. apply type_wf_scalar in H. unfold type_all. destruct (type_scalar t); [exact H|exact I]. Qed.
Lemma wf_struct d fs : wf (Message d (KStruct fs)) = true -> Forall (fun f => member_wf wf f = true) fs.
Proof. cbn [wf]. intro H. apply Forall_forall, forallb_forall, H. Qed.
Lemma wf_union d ts : wf (Message d (KUnion ts)) = true -> (2 <= length ts)%nat /\ N.of_nat (length ts) < 2 ^ 31 /\ Forall (fun t => type_wf wf t = true) ts.
Proof. cbn [wf]. rewrite !andb_true_iff, Nat.leb_le, N.ltb_lt. intros ((H1 & H2) & H3). split; [assumption|]. split; [assumption|]. apply Forall_forall, forallb_forall, H3. Qed.

Lemma shaped_scalar s : scalar_all (fun m => wf m = true -> shaped (bit_length m)) s -> scalar_wf wf s = true -> shaped (scalar_size bit_length s).
Proof.
  destruct s as [m|p]; cbn [scalar_all scalar_wf scalar_size]; [tauto|]. intros _ H. apply shaped_single, small64. unfold prim_wf in H. apply andb_true_iff in H as (_ & H). apply Nat.leb_le, H.
Qed.
Lemma shaped_type t : type_all (fun m => wf m = true -> shaped (bit_length m)) t -> type_wf wf t = true -> shaped (type_size bit_length t).
Proof.
  intros H W. pose proof (shaped_scalar (type_scalar t) H (type_wf_scalar _ _ W)) as Hs. destruct t as [s|s n|s n]; cbn [type_size type_scalar] in *; [assumption| |].
  - cbn [shaped bls_repeat]. split; [assumption|]. cbn [type_wf] in W. rewrite !andb_true_iff, N.ltb_lt in W. tauto.
  - cbn [shaped bls_repeat_range]. split; [assumption|]. apply variable_wf in W. assumption.
Qed.
Lemma shaped_total t : type_all (fun m => wf m = true -> shaped (bit_length m)) t -> type_wf wf t = true -> shaped (total_length bit_length t).
Proof.
  intros H W. pose proof (shaped_type t H W) as Ht. unfold total_length. destruct t as [s|s n|s n]; cbn [implicit_bits]; [destruct (scalar_delimited s)| |]; try assumption;
    apply shaped_concat2; try assumption; apply shaped_single; [reflexivity|]. apply variable_wf in W. rewrite array_length_bits_prefix by assumption. apply prefix_small.
Qed.
Definition shaped_opt (o : option operator) : Prop := match o with None => True | Some l => shaped l end.
Lemma alignment_range t : 0 < type_alignment t < 2 ^ 32.
Proof. rewrite type_alignment_cases. destruct (has_composite t); split; reflexivity. Qed.
Lemma shaped_add before f : member_all (fun m => wf m = true -> shaped (bit_length m)) f -> member_wf wf f = true -> shaped_opt before -> shaped (add_member bit_length before f).
Proof.
  intros H W Hb. destruct f as [bits|t]; cbn [add_member member_wf] in *.
  - apply andb_true_iff in W as (_ & W). apply Nat.leb_le in W. pose proof (shaped_single _ (small64 _ W)). destruct before; [apply shaped_concat2|]; assumption.
  - cbn [bls_pad shaped bls_concatenate]. split; [|apply alignment_range]. split; [discriminate|]. split; [split; [|apply alignment_range]|split; [apply shaped_total; assumption|exact I]].
    destruct before; [assumption|apply shaped_single; reflexivity].
Qed.
Lemma shaped_struct fs : Forall (member_all (fun m => wf m = true -> shaped (bit_length m))) fs -> Forall (fun f => member_wf wf f = true) fs ->
  forall before, shaped_opt before -> shaped (struct_length bit_length before fs).
Proof.
  induction 1 as [|f fs Hf _ IH]; intros W before Hb; cbn [struct_length]; [destruct before; [assumption|apply shaped_single; reflexivity]|].
  inversion W; subst. apply IH; [assumption|]. apply shaped_add; assumption.
Qed.
Lemma shaped_bit_length : forall m, wf m = true -> shaped (bit_length m).
Proof.
  apply (message_ind' (fun m => wf m = true -> shaped (bit_length m))). intros d k H W. cbn [bit_length]. cbn [bls_pad shaped]. split; [|split; reflexivity].
  destruct k as [fs|ts]; cbn [kind_length kind_all] in *; [apply shaped_struct; [assumption|apply (wf_struct d), W|exact I]|].
  apply wf_union in W as (W1 & W2 & W3). unfold union_length. apply shaped_concat2.
  - apply shaped_single. unfold discriminant_bits. rewrite array_length_bits_prefix; [apply prefix_small|]. pose proof pow31_64. lia.
  - assert (Hm : Forall shaped (map (type_size bit_length) ts)).
    { apply Forall_map. rewrite Forall_forall in *. intros t Ht. apply shaped_type; [apply H, Ht|apply W3, Ht]. }
    destruct (map (type_size bit_length) ts) as [|s r]; [apply shaped_single; reflexivity|]. inversion Hm as [|? ? Hs Hr]; subst. clear - Hs Hr. revert s Hs.
    induction Hr as [|x r Hx _ IH]; intros s Hs; [assumption|]. cbn [fold_left]. apply IH. cbn [bls_unite shaped]. split; [discriminate|]. tauto.
Qed.
(** The frontend can calculate the longest encoding. *)
Theorem frontend_ok m : wf m = true -> (exists n, bls_max_value (bit_length m) = Ok n) -> bls_ok (bit_length m).
Proof. intros W (n & E). apply (op_max_ok _ (shaped_bit_length m W) n E). Qed.
