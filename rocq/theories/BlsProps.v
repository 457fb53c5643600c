(** Properties C42-C44, C61 and C62: bit length sets. *)
From Coq Require Import Sorted.
From Verif Require Import Base BlsModel BlsSpec BlsProofs.
Ltac Zify.zify_post_hook ::= Z.div_mod_to_equations.

(** An expression that the examples use: up to 3 elements of 5 or 8 bits after a header of 9 bits, padded to bytes. *)
Definition ex_set : operator := bls_pad (bls_concatenate (bls_single 9) [bls_repeat_range (Leaf [5; 8]) 3]) 8.

Lemma single_den l v : den (Leaf [l]) v <-> v = l.
Proof. cbn [den In]. intuition. Qed.
Lemma den_two_bound l v b : den (Leaf l) v -> Forall (fun x => x <= b) l -> v <= b.
Proof. cbn [den]. intros H HF. rewrite Forall_forall in HF. auto. Qed.

Lemma ex_range v : den (RangeRepeat (Leaf [5; 8]) 3) v -> v <= 24.
Proof.
  intros (vs & Hl & HF & ->). assert (total vs <= 8 * N.of_nat (length vs)); [|lia]. apply total_bound. eapply Forall_impl; [|exact HF]. intros x Hx. eapply den_two_bound; [exact Hx|]. repeat constructor; lia.
Qed.
Lemma ex_concat v : den (Concatenate [Leaf [9]; RangeRepeat (Leaf [5; 8]) 3]) v -> v <= 33.
Proof.
  intro H. apply den_concat in H as (vs & HF & ->). inversion HF as [|? x ? r H1 H2]; subst. inversion H2 as [|? y ? q H3 H4]; subst. inversion H4; subst.
  apply single_den in H1. apply ex_range in H3. unfold total. cbn [fold_right]. lia.
Qed.
Lemma ex_ok : bls_ok ex_set.
Proof.
  change (2 ^ 64) with 18446744073709551616. unfold ex_set, bls_pad, bls_concatenate, bls_single, bls_repeat_range. split; [|split; [split; [|split; [discriminate|]]|lia]].
  - intros v (u & Hu & H1 & H2 & _). apply ex_concat in Hu. change (2 ^ 64) with 18446744073709551616. lia.
  - intros v Hv. apply ex_concat in Hv. change (2 ^ 64) with 18446744073709551616. lia.
  - split; [split; [|split; [repeat constructor|discriminate]]|split; [|exact I]].
    + intros v Hv. apply single_den in Hv. subst. reflexivity.
    + split; [|split; [split; [|split; [repeat constructor; lia|discriminate]]|reflexivity]].
      * intros v Hv. apply ex_range in Hv. change (2 ^ 64) with 18446744073709551616. lia.
      * intros v Hv. eapply (den_two_bound _ _ 8) in Hv; [change (2 ^ 64) with 18446744073709551616; lia|repeat constructor; lia].
Qed.

(** * C42 *)

Theorem C42_bounds : forall o, bls_ok o ->
  exists lo hi, bls_min_value o = Ok lo /\ bls_max_value o = Ok hi /\ den o lo /\ den o hi /\ forall v, den o v -> lo <= v <= hi.
Proof.
  intros o H. destruct (op_min_spec o H) as (lo & E1 & D1 & M1). destruct (op_max_spec o H) as (hi & E2 & D2 & M2). exists lo, hi.
  split; [assumption|]. split; [assumption|]. split; [assumption|]. split; [assumption|]. intros v Hv. split; auto.
Qed.
Print Assumptions C42_bounds.
Example C42_witness : bls_ok ex_set /\ bls_min_value ex_set = Ok 16 /\ bls_max_value ex_set = Ok 40.
Proof. split; [exact ex_ok|]. split; reflexivity. Qed.

Theorem C42_fixed_size : forall o, bls_ok o -> exists b, bls_is_fixed_size o = Ok b /\ (b = true <-> exists v, forall w, den o w <-> w = v).
Proof.
  intros o H. destruct (C42_bounds o H) as (lo & hi & E1 & E2 & D1 & D2 & HB). unfold bls_is_fixed_size. rewrite E1, E2. cbn [bindr]. eexists. split; [reflexivity|]. rewrite N.eqb_eq. split.
  - intros ->. exists hi. intro w. split; [intro Hw; apply HB in Hw; lia|intros ->; assumption].
  - intros (v & Hv). apply Hv in D1, D2. congruence.
Qed.
Print Assumptions C42_fixed_size.

(** Outside the range of [u64] the calculation panics (it wraps around without debug assertions). *)
Theorem C42_overflow : forall o n hi, bls_ok o -> (forall v, den o v -> v <= hi) -> den o hi -> 2 ^ 64 <= hi * n ->
  bls_max_value (bls_repeat o n) = Panic /\ bls_max_value (bls_repeat_range o n) = Panic.
Proof.
  intros o n hi H Hm Hd Hn. destruct (op_max_spec o H) as (m & E & D & M). assert (m = hi) as -> by (specialize (M hi Hd); specialize (Hm m D); lia).
  unfold bls_max_value, bls_repeat, bls_repeat_range. cbn [op_max]. rewrite E. cbn [bindr]. unfold mul64, chk64. destruct (N.ltb_spec (hi * n) (2 ^ 64)); [lia|]. split; reflexivity.
Qed.
Print Assumptions C42_overflow.
Example C42_overflow_witness : bls_max_value (bls_repeat ex_set (2 ^ 63)) = Panic.
Proof. reflexivity. Qed.

(** * C43 *)

Theorem C43_remainder_partial : forall o d, bls_ok o -> bls_small o -> compatible d o -> 0 < d <= 2 ^ 31 ->
  exists l, bls_rem o d = Ok (Leaf l) /\ is_set l /\ (forall r, In r l <-> exists v, den o v /\ r = v mod d).
Proof.
  intros o d H1 H2 H3 Hd. destruct (op_modulo_spec d Hd o H1 H2 H3) as (l & E & Hs & Hl). exists l. unfold bls_rem. rewrite E. cbn [bindr].
  split; [|split; assumption]. destruct l; [|reflexivity]. destruct (den_inhabited o H1) as (v & Hv). destruct (proj2 (Hl (v mod d)) (ex_intro _ v (conj Hv eq_refl))).
Qed.
Print Assumptions C43_remainder_partial.

Theorem C43_aligned_partial : forall o d, bls_ok o -> bls_small o -> compatible d o -> 0 < d <= 2 ^ 31 ->
  exists b, bls_is_aligned o d = Ok b /\ (b = true <-> forall v, den o v -> v mod d = 0).
Proof.
  intros o d H1 H2 H3 Hd. destruct (C43_remainder_partial o d H1 H2 H3 Hd) as (l & E & Hs & Hl). unfold bls_is_aligned. rewrite E. cbn [bindr].
  destruct (den_inhabited o H1) as (v0 & Hv0). assert (Hne : l <> []) by (intros ->; destruct (proj2 (Hl (v0 mod d)) (ex_intro _ v0 (conj Hv0 eq_refl)))).
  destruct (set_min_spec l Hs Hne) as (lo & E1 & I1 & M1). destruct (set_max_spec l Hs Hne) as (hi & E2 & I2 & M2).
  unfold bls_is_fixed_size, bls_min_value, bls_max_value. cbn [op_min op_max]. rewrite E1, E2. cbn [bindr].
  destruct (N.eqb_spec lo hi) as [Heq|Hneq]; eexists; (split; [reflexivity|]).
  - rewrite N.eqb_eq. split.
    + intros -> v Hv. assert (Hin : In (v mod d) l) by (apply Hl; exists v; split; [assumption|reflexivity]). specialize (M2 _ Hin). lia.
    + intros HA. apply Hl in I1 as (v & Hv & ->). apply HA. assumption.
  - split; [discriminate|]. intros HA. exfalso. apply Hneq. apply Hl in I1 as (v & Hv & E3). apply Hl in I2 as (w & Hw & E4). apply HA in Hv, Hw. congruence.
Qed.
Print Assumptions C43_aligned_partial.
(** Byte alignment is exact for expressions in which every alignment divides 8 or is a multiple of 8, as those of DSDL types. *)
Theorem C43_byte_aligned_partial : forall o, bls_ok o -> bls_small o -> compatible 8 o ->
  exists b, bls_is_byte_aligned o = Ok b /\ (b = true <-> forall v, den o v -> v mod 8 = 0).
Proof. intros o H1 H2 H3. apply C43_aligned_partial; try assumption. split; [lia|]. change (2 ^ 31) with 2147483648. lia. Qed.
Print Assumptions C43_byte_aligned_partial.
Example C43_witness : bls_ok ex_set /\ bls_small ex_set /\ compatible 16 ex_set /\ bls_rem ex_set 16 = Ok (Leaf [0; 8]) /\ bls_is_aligned ex_set 16 = Ok false /\ bls_is_byte_aligned ex_set = Ok true.
Proof.
  split; [exact ex_ok|]. split; [repeat split|]. split; [|vm_compute; repeat split]. split; [repeat split|left; exists 2; reflexivity].
Qed.

(** The remainder of a padded set is wrong when neither the alignment nor the divisor divides the other: 9 bits padded to bytes
    are 16 bits, which is not a multiple of 3. *)
Theorem C43_refuted : exists o d, bls_ok o /\ bls_small o /\ 0 < d <= 2 ^ 31 /\ (forall v, den o v -> v mod d = 1) /\ bls_rem o d = Ok (Leaf [0]) /\ bls_is_aligned o d = Ok true.
Proof.
  exists (bls_pad (bls_single 9) 8), 3.
  assert (D : forall v, den (Padding (Leaf [9]) 8) v <-> v = 16).
  { intro v. split; [|intros ->; exists 9; split; [left; reflexivity|repeat split; lia]]. intros (u & Hu & H1 & H2 & H3). apply single_den in Hu. lia. }
  split; [|split; [exact I|split; [split; [lia|change (2 ^ 31) with 2147483648; lia]|split; [|split; reflexivity]]]].
  - split; [intros v Hv; apply D in Hv; subst; reflexivity|]. split; [|change (2 ^ 32) with 4294967296; lia]. split; [intros v Hv; apply single_den in Hv; subst; reflexivity|]. split; [repeat constructor|discriminate].
  - intros v Hv. apply D in Hv. subst. reflexivity.
Qed.
Print Assumptions C43_refuted.

(** * C44 *)

(** The constructors mean what they say. *)
Theorem C44_constructors : forall o os a n ls v,
  (den (bls_single n) v <-> v = n) /\
  (match bls_from_lengths ls with Some s => ls <> [] /\ (den s v <-> In v ls) | None => ls = [] end) /\
  (den (bls_pad o a) v <-> exists u, den o u /\ u <= v < u + a /\ v mod a = 0) /\
  (den (bls_concatenate o os) v <-> exists u us, den o u /\ Forall2 den os us /\ v = u + total us) /\
  (den (bls_unite o os) v <-> exists s, In s (o :: os) /\ den s v) /\
  (den (bls_repeat o n) v <-> exists us, N.of_nat (length us) = n /\ Forall (den o) us /\ v = total us) /\
  (den (bls_repeat_range o n) v <-> exists k, k <= n /\ den (bls_repeat o k) v).
Proof.
  intros o os a n ls v. split; [apply single_den|]. split.
  { unfold bls_from_lengths. pose proof (set_of_In ls) as H. destruct (set_of ls) as [|x l].
    - destruct ls as [|y ls]; [reflexivity|]. destruct (proj2 (H y) (or_introl eq_refl)).
    - split; [|apply H]. intros ->. destruct (proj1 (H x) (or_introl eq_refl)). }
  split. { unfold bls_pad. cbn [den]. unfold padded. split; intros (u & H); exists u; tauto. }
  split. { unfold bls_concatenate. rewrite den_concat. split.
    - intros (vs & HF & ->). inversion HF; subst. eexists _, _. split; [eassumption|]. split; [eassumption|]. reflexivity.
    - intros (u & us & H1 & H2 & ->). exists (u :: us). split; [constructor; assumption|reflexivity]. }
  split. { unfold bls_unite. rewrite den_union. apply Exists_exists. }
  split; [reflexivity|]. split.
  - intros (us & H1 & H2 & H3). exists (N.of_nat (length us)). split; [assumption|]. exists us. split; [reflexivity|]. split; assumption.
  - intros (k & Hk & us & H1 & H2 & H3). exists us. split; [lia|]. split; assumption.
Qed.
Print Assumptions C44_constructors.

Theorem C44_expand : forall o, bls_ok o -> exists l, bls_expand o = Ok l /\ is_set l /\ forall v, In v l <-> den o v.
Proof. exact op_expand_spec. Qed.
Print Assumptions C44_expand.

Theorem C44_equality : forall a b, bls_ok a -> bls_ok b -> exists e, bls_eq a b = Ok e /\ (e = true <-> forall v, den a v <-> den b v).
Proof.
  intros a b Ha Hb. destruct (op_expand_spec a Ha) as (x & Ex & Sx & Dx). destruct (op_expand_spec b Hb) as (y & Ey & Sy & Dy). unfold bls_eq, bls_expand.
  destruct (structural_equal a b) eqn:Es.
  - exists true. split; [reflexivity|]. split; [|reflexivity]. intros _ v. apply structural_equal_eq in Es. subst. reflexivity.
  - rewrite Ex, Ey. cbn [bindr]. eexists. split; [reflexivity|]. rewrite set_eqb_eq. split.
    + intros -> v. rewrite <- Dx, <- Dy. reflexivity.
    + intro H. apply set_ext; [assumption|assumption|]. intro v. rewrite Dx, Dy. apply H.
Qed.
Print Assumptions C44_equality.

Theorem C44_padding : forall o a, bls_ok (bls_pad o a) -> exists l l', bls_expand o = Ok l /\ bls_expand (bls_pad o a) = Ok l' /\
  (forall v, In v l' -> v mod a = 0 /\ exists u, In u l /\ u <= v < u + a) /\
  (forall u, In u l -> exists v, In v l' /\ u <= v < u + a).
Proof.
  intros o a H. pose proof H as (_ & Ho & Ha). destruct (op_expand_spec o Ho) as (l & E & _ & D). destruct (op_expand_spec _ H) as (l' & E' & _ & D'). exists l, l'.
  split; [assumption|]. split; [assumption|]. split.
  - intros v Hv. apply D' in Hv as (u & Hu & H1 & H2 & H3). split; [assumption|]. exists u. split; [apply D, Hu|]. split; assumption.
  - intros u Hu. destruct (alup_padded a u ltac:(lia)) as (P1 & P2 & P3). exists (alup a u). split; [|split; assumption]. apply D'. exists u. split; [apply D, Hu|]. split; [assumption|split; assumption].
Qed.
Print Assumptions C44_padding.
Example C44_witness : bls_ok ex_set /\ bls_expand ex_set = Ok [16; 24; 32; 40] /\ bls_eq ex_set (bls_unite (Leaf [16; 40]) [Leaf [24]; Leaf [24; 32]]) = Ok true /\ bls_eq ex_set (Leaf [16]) = Ok false.
Proof. split; [exact ex_ok|]. vm_compute. repeat split. Qed.

(** * C61: comparison *)

(** The order of the increasing sequences of elements, element by element, a proper beginning before its extensions. *)
Definition lex_lt (x y : list N) : Prop := exists p, (exists b q, x = p /\ y = p ++ b :: q) \/ (exists a r b q, x = p ++ a :: r /\ y = p ++ b :: q /\ a < b).

Lemma set_compare_spec x : forall y, match set_compare x y with Eq => x = y | Lt => lex_lt x y | Gt => lex_lt y x end.
Proof.
  induction x as [|a x IH]; intros [|b y]; cbn [set_compare]; [reflexivity| | |].
  - exists []. left. exists b, y. split; reflexivity.
  - exists []. left. exists a, x. split; reflexivity.
  - destruct (N.compare_spec a b).
    + subst b. specialize (IH y). destruct (set_compare x y); [congruence| |].
      * destruct IH as (p & [(c & q & -> & ->)|(c & r & e & q & -> & -> & Hl)]); exists (a :: p); [left; exists c, q|right; exists c, r, e, q]; repeat split; assumption.
      * destruct IH as (p & [(c & q & -> & ->)|(c & r & e & q & -> & -> & Hl)]); exists (a :: p); [left; exists c, q|right; exists c, r, e, q]; repeat split; assumption.
    + exists []. right. exists a, x, b, y. repeat split. assumption.
    + exists []. right. exists b, y, a, x. repeat split. assumption.
Qed.
Lemma set_compare_antisym x : forall y, set_compare y x = CompOpp (set_compare x y).
Proof. induction x as [|a x IH]; intros [|b y]; cbn [set_compare]; try reflexivity. rewrite N.compare_antisym. destruct (a ?= b); cbn [CompOpp]; [apply IH|reflexivity|reflexivity]. Qed.
Lemma set_compare_trans x : forall y z, set_compare x y <> Gt -> set_compare y z <> Gt -> set_compare x z <> Gt.
Proof.
  induction x as [|a x IH]; intros [|b y] [|c z]; cbn [set_compare]; try congruence.
  destruct (N.compare_spec a b), (N.compare_spec b c), (N.compare_spec a c); try congruence; try lia. apply IH.
Qed.

Theorem C61_order : forall a b, bls_ok a -> bls_ok b -> exists x y c, bls_expand a = Ok x /\ bls_expand b = Ok y /\ bls_cmp a b = Ok c /\
  match c with Eq => forall v, den a v <-> den b v | Lt => lex_lt x y | Gt => lex_lt y x end /\
  (c = Eq <-> bls_eq a b = Ok true) /\ bls_cmp b a = Ok (CompOpp c).
Proof.
  intros a b Ha Hb. destruct (op_expand_spec a Ha) as (x & Ex & Sx & Dx). destruct (op_expand_spec b Hb) as (y & Ey & Sy & Dy). exists x, y, (set_compare x y).
  unfold bls_cmp, bls_expand. rewrite Ex, Ey. cbn [bindr]. split; [reflexivity|]. split; [reflexivity|]. split; [reflexivity|]. pose proof (set_compare_spec x y) as HC.
  assert (HE : set_compare x y = Eq <-> forall v, den a v <-> den b v).
  { split; intro H.
    - rewrite H in HC. subst y. intro v. rewrite <- Dx, <- Dy. reflexivity.
    - assert (x = y) as -> by (apply set_ext; [assumption|assumption|]; intro v; rewrite Dx, Dy; apply H). clear. induction y as [|z y IH]; [reflexivity|]. cbn [set_compare]. rewrite N.compare_refl. assumption. }
  split; [destruct (set_compare x y) eqn:Ec; [apply HE; reflexivity|assumption|assumption]|]. split.
  - rewrite HE. destruct (C44_equality a b Ha Hb) as (e & Ee & He). rewrite Ee. split; [intro H; apply He in H; congruence|]. intro H. apply He. congruence.
  - rewrite set_compare_antisym. reflexivity.
Qed.
Print Assumptions C61_order.

Theorem C61_transitive : forall a b c, bls_ok a -> bls_ok b -> bls_ok c -> bls_cmp a b <> Ok Gt -> bls_cmp b c <> Ok Gt -> bls_cmp a c <> Ok Gt.
Proof.
  intros a b c Ha Hb Hc. destruct (op_expand_spec a Ha) as (x & Ex & _). destruct (op_expand_spec b Hb) as (y & Ey & _). destruct (op_expand_spec c Hc) as (z & Ez & _).
  unfold bls_cmp, bls_expand. rewrite Ex, Ey, Ez. cbn [bindr]. intros H1 H2 H3. apply (set_compare_trans x y z); congruence.
Qed.
Print Assumptions C61_transitive.
Example C61_witness : bls_ok ex_set /\ bls_cmp (Leaf [16; 23]) ex_set = Ok Lt /\ bls_cmp ex_set (Leaf [16; 24]) = Ok Gt /\ bls_cmp ex_set (Leaf [16; 24; 32; 40]) = Ok Eq.
Proof. split; [exact ex_ok|]. vm_compute. repeat split. Qed.

(** * C62: the self check *)

(** No padding, except to multiples of 1. *)
Fixpoint unpadded (o : operator) : Prop :=
  match o with
  | Leaf _ => True
  | Padding child a => unpadded child /\ a = 1
  | Concatenate children | Union children => (fix all (cs : list operator) : Prop := match cs with [] => True | c :: cs' => unpadded c /\ all cs' end) children
  | Repeat child _ | RangeRepeat child _ => unpadded child
  end.
Lemma unpadded_compatible d : forall o, unpadded o -> compatible d o.
Proof.
  apply (op_rect' (fun o => unpadded o -> compatible d o)).
  - intros l H. exact I.
  - intros c a IH (H1 & ->). split; [apply IH, H1|]. left. apply N.divide_1_l.
  - intros cs IH H. cbn [unpadded] in H. apply (all_iff unpadded) in H. cbn [compatible]. apply (all_iff (compatible d)). apply (Forall_mp _ _ _ IH H).
  - intros c n IH H. apply IH, H.
  - intros c n IH H. apply IH, H.
  - intros cs IH H. cbn [unpadded] in H. apply (all_iff unpadded) in H. cbn [compatible]. apply (all_iff (compatible d)). apply (Forall_mp _ _ _ IH H).
Qed.

Theorem C62_validate_partial : forall o, bls_ok o -> bls_small o -> unpadded o -> bls_validate o = Ok tt.
Proof.
  intros o H1 H2 H3. destruct (op_expand_spec o H1) as (l & E & Hs & D). destruct (op_min_spec o H1) as (lo & E1 & D1 & M1). destruct (op_max_spec o H1) as (hi & E2 & D2 & M2).
  assert (Hne : l <> []) by (intros ->; apply D in D1; destruct D1). destruct (set_min_spec l Hs Hne) as (lo' & E3 & I3 & M3). destruct (set_max_spec l Hs Hne) as (hi' & E4 & I4 & M4).
  assert (lo' = lo) as -> by (apply D in D1, I3; specialize (M3 _ D1); specialize (M1 _ I3); lia).
  assert (hi' = hi) as -> by (apply D in D2, I4; specialize (M4 _ D2); specialize (M2 _ I4); lia).
  unfold bls_validate. rewrite E. cbn [bindr]. rewrite E3. cbn [bindr]. rewrite E1. cbn [bindr]. rewrite N.eqb_refl. cbn [negb]. rewrite E4. cbn [bindr]. rewrite E2. cbn [bindr]. rewrite N.eqb_refl. cbn [negb].
  rewrite (mapM_ok _ (fun _ => tt)); [reflexivity|]. intros i Hi. apply in_map_iff in Hi as (k & <- & Hk). apply in_seq in Hk.
  assert (Hd : 0 < N.of_nat k <= 2 ^ 31) by (change (2 ^ 31) with 2147483648; lia).
  destruct (op_modulo_spec _ Hd o H1 H2 (unpadded_compatible _ o H3)) as (m & Em & Sm & Dm). rewrite Em. cbn [bindr].
  rewrite (mapM_ok _ (fun v => v mod N.of_nat k)) by (intros; unfold rem64; destruct (N.eqb_spec (N.of_nat k) 0); [lia|reflexivity]). cbn [bindr].
  assert (m = set_of (map (fun v => v mod N.of_nat k) l)) as <-; [|rewrite (proj2 (set_eqb_eq m m) eq_refl); reflexivity].
  apply set_ext; [assumption|apply set_of_set|]. intro r. rewrite Dm, set_of_In, in_map_iff. split; intros (v & A & B); exists v.
  - split; [symmetry; exact B|apply D, A].
  - split; [apply D, B|symmetry; exact A].
Qed.
Print Assumptions C62_validate_partial.
Example C62_witness : let o := bls_concatenate (Leaf [9]) [bls_repeat_range (Leaf [5; 8]) 3] in bls_ok o /\ bls_small o /\ unpadded o.
Proof. cbv zeta. split; [|repeat split]. destruct ex_ok as (_ & H & _). exact H. Qed.

(** [validate_numerically] panics for the padded set of C43. *)
Theorem C62_refuted : exists o, bls_ok o /\ bls_small o /\ bls_validate o = Panic.
Proof.
  exists (bls_pad (bls_single 9) 8).
  split; [|split; [exact I|vm_compute; reflexivity]]. split; [intros v (u & Hu & H1 & H2 & H3); apply single_den in Hu; subst; change (2 ^ 64) with 18446744073709551616; lia|].
  split; [|change (2 ^ 32) with 4294967296; lia]. split; [intros v Hv; apply single_den in Hv; subst; reflexivity|]. split; [repeat constructor|discriminate].
Qed.
Print Assumptions C62_refuted.
