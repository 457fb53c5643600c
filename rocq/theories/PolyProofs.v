From Verif Require Import Base BitLemmas CrcModel CrcProofs PolySpec PnpModel.
Ltac Zify.zify_post_hook ::= Z.div_mod_to_equations.

(** * Products *)
Lemma product_even q g : product (2 * q) g = N.shiftl (product q g) 1.
Proof. destruct q; [symmetry; apply N.shiftl_0_l|reflexivity]. Qed.
Lemma product_odd q g : product (2 * q + 1) g = N.lxor g (N.shiftl (product q g) 1).
Proof. destruct q; [cbn [product]; rewrite N.shiftl_0_l, N.lxor_0_r; reflexivity|reflexivity]. Qed.
Lemma lxor_split a b : exists s, N.lxor a b = 2 * s + N.b2n (xorb (N.odd a) (N.odd b)) /\ s = N.lxor (N.div2 a) (N.div2 b).
Proof.
  exists (N.lxor (N.div2 a) (N.div2 b)). split; [|reflexivity]. rewrite !N.div2_spec, <- N.shiftr_lxor, <- N.div2_spec. pose proof (N.div2_odd (N.lxor a b)) as E. rewrite E at 1. f_equal. rewrite <- !N.bit0_odd, N.lxor_spec. reflexivity.
Qed.
Lemma product_bit q (b : bool) g : product (2 * q + N.b2n b) g = N.lxor (if b then g else 0) (N.shiftl (product q g) 1).
Proof. destruct b; cbn [N.b2n]; [apply product_odd|]. rewrite N.add_0_r, N.lxor_0_l. apply product_even. Qed.
Lemma product_lxor : forall a b g, product (N.lxor a b) g = N.lxor (product a g) (product b g).
Proof.
  intro a. induction a as [|a IH] using N.peano_ind. 1:{ intros. rewrite N.lxor_0_l. reflexivity. }
  clear IH. remember (N.succ a) as x. clear a Heqx. revert x. intro x. pattern x. apply (well_founded_induction N.lt_wf_0). clear x. intros x IH b g.
  destruct (N.eq_dec x 0) as [->|Nx]; [rewrite N.lxor_0_l; reflexivity|].
  destruct (lxor_split x b) as (s & E & ->). rewrite E, product_bit, IH by (rewrite N.div2_div; lia).
  assert (P : forall y, product y g = N.lxor (if N.odd y then g else 0) (N.shiftl (product (N.div2 y) g) 1)) by (intro y; rewrite <- product_bit, <- N.div2_odd; reflexivity).
  rewrite (P x), (P b), lxor_perm, if_lxor, N.shiftl_lxor. reflexivity.
Qed.
Lemma product_top g w : N.testbit g w = true -> (forall j, w < j -> N.testbit g j = false) -> forall p, exists k, w <= k /\ N.testbit (product_pos p g) k = true /\ forall j, k < j -> N.testbit (product_pos p g) j = false.
Proof.
  intros T Z. induction p as [p (k & Hk & Tk & Zk)|p (k & Hk & Tk & Zk)|]; cbn [product_pos].
  - exists (k + 1). split; [lia|]. split.
    + rewrite N.lxor_spec, N.shiftl_spec_high' by lia. rewrite (Z (k + 1)) by lia. replace (k + 1 - 1) with k by lia. rewrite Tk. reflexivity.
    + intros j Hj. rewrite N.lxor_spec, N.shiftl_spec_high' by lia. rewrite (Z j), Zk by lia. reflexivity.
  - exists (k + 1). split; [lia|]. split; [rewrite N.shiftl_spec_high' by lia; replace (k + 1 - 1) with k by lia; exact Tk|]. intros j Hj. rewrite N.shiftl_spec_high' by lia. apply Zk. lia.
  - exists w. split; [lia|]. split; assumption.
Qed.
Lemma remainder_unique g m r r' : g <> 0 -> remainder g m r -> remainder g m r' -> r = r'.
Proof.
  intros G (B & q & E) (B' & q' & E'). assert (X : product (N.lxor q q') g = N.lxor r r').
  { rewrite product_lxor. apply lxor_eq_0. rewrite lxor_perm, <- E, <- E'. apply N.lxor_nilpotent. }
  apply lxor_eq_0. rewrite <- X. destruct (N.lxor q q') as [|p]; [reflexivity|]. exfalso. destruct (product_top g (N.log2 g) (N.bit_log2 g G) ltac:(intros; apply N.bits_above_log2; assumption) p) as (k & Hk & T & _).
  change (product_pos p g) with (product (Npos p) g) in T. rewrite X in T. rewrite (testbit_high _ (N.log2 g)) in T; [discriminate|apply lxor_bound; assumption|exact Hk].
Qed.

(** * Congruence *)
Definition congruent (g a b : N) : Prop := exists q, a = N.lxor (product q g) b.
Lemma congruent_refl g a : congruent g a a.
Proof. exists 0. symmetry. apply N.lxor_0_l. Qed.
Lemma congruent_trans g a b c : congruent g a b -> congruent g b c -> congruent g a c.
Proof. intros (q & ->) (p & ->). exists (N.lxor q p). rewrite product_lxor, N.lxor_assoc. reflexivity. Qed.
Lemma congruent_shift g a b k : congruent g a b -> congruent g (N.shiftl a k) (N.shiftl b k).
Proof.
  intros (q & ->). exists (N.shiftl q k). rewrite N.shiftl_lxor. f_equal. clear. induction k as [|k IH] using N.peano_ind; [rewrite !N.shiftl_0_r; reflexivity|].
  rewrite <- N.add_1_r, <- !N.shiftl_shiftl, IH. rewrite <- product_even, (N.shiftl_mul_pow2 (N.shiftl q k) 1), (N.mul_comm _ (2 ^ 1)). reflexivity.
Qed.
Lemma congruent_lxor g a b c : congruent g a b -> congruent g (N.lxor a c) (N.lxor b c).
Proof. intros (q & ->). exists q. rewrite N.lxor_assoc. reflexivity. Qed.

(** * A check from the highest bit on *)
Section Msb.
  Variable w : N.  Variable g : N.  Variable step : N -> N.  Variable digest : N -> N -> N.
  Hypothesis Hw : 8 <= w.
  Hypothesis step_right : forall v, v < 2 ^ w -> step v < 2 ^ w /\ congruent g (N.shiftl v 1) (step v).
  Hypothesis digest_right : forall v b, v < 2 ^ w -> is_byte b -> digest v b = repeatn 8 step (N.lxor v (N.shiftl b (w - 8))).
  Lemma steps n : forall v, v < 2 ^ w -> repeatn n step v < 2 ^ w /\ congruent g (N.shiftl v (N.of_nat n)) (repeatn n step v).
  Proof.
    induction n as [|n IH]; intros v B; cbn [repeatn]; [split; [exact B|]; rewrite N.shiftl_0_r; apply congruent_refl|].
    destruct (step_right v B) as (B1 & C1). destruct (IH _ B1) as (B2 & C2). split; [exact B2|]. eapply congruent_trans; [|exact C2]. replace (N.of_nat (Datatypes.S n)) with (1 + N.of_nat n) by lia. rewrite <- N.shiftl_shiftl. apply congruent_shift, C1.
  Qed.
  Lemma digest_bytes l : forall v, v < 2 ^ w -> bytes_ok l -> fold_left digest l v < 2 ^ w /\ congruent g (preset w v l) (fold_left digest l v).
  Proof.
    induction l as [|b l IH] using rev_ind; intros v B F.
    - cbn [fold_left]. split; [exact B|]. unfold preset. cbn [polynomial fold_left length]. rewrite N.shiftl_0_l, N.lxor_0_l. change (8 * N.of_nat 0) with 0. rewrite N.shiftl_0_r. apply congruent_refl.
    - apply bytes_ok_app in F as (F & Fb). apply Forall_inv in Fb. destruct (IH v B F) as (B1 & C1). rewrite fold_left_app. cbn [fold_left]. set (v1 := fold_left digest l v) in *.
      assert (B2 : N.lxor v1 (N.shiftl b (w - 8)) < 2 ^ w). { apply lxor_bound; [exact B1|]. replace w with (8 + (w - 8)) at 2 by lia. apply shiftl_bound. exact Fb. }
      rewrite digest_right by assumption. destruct (steps 8 _ B2) as (B3 & C3). split; [exact B3|]. eapply congruent_trans; [|exact C3]. change (N.of_nat 8) with 8. rewrite N.shiftl_lxor, N.shiftl_shiftl. replace (w - 8 + 8) with w by lia.
      unfold preset, polynomial. rewrite fold_left_app, app_length. cbn [fold_left length]. fold (polynomial l). replace (8 * N.of_nat (length l + 1)) with (8 * N.of_nat (length l) + 8) by lia. rewrite <- N.shiftl_shiftl, N.shiftl_lxor.
      replace (N.shiftl (N.shiftl (polynomial l) 8) w) with (N.shiftl (N.shiftl (polynomial l) w) 8) by (rewrite !N.shiftl_shiftl; f_equal; lia).
      rewrite N.lxor_assoc, (N.lxor_comm (N.shiftl b w)), <- N.lxor_assoc, <- N.shiftl_lxor. apply congruent_lxor. fold (preset w v l). apply congruent_shift, C1.
  Qed.
End Msb.
Lemma msb_step w g v : 1 <= w -> N.log2 g = w -> g <> 0 -> v < 2 ^ w ->
  let s := if N.testbit v (w - 1) then N.lxor (N.shiftl v 1) g else N.shiftl v 1 in s < 2 ^ w /\ congruent g (N.shiftl v 1) s.
Proof.
  intros Hw L G B s. assert (Z : forall i, w < i -> N.testbit (N.shiftl v 1) i = false). { intros i Hi. rewrite N.shiftl_spec_high' by lia. apply (testbit_high _ w); [exact B|lia]. }
  assert (T : N.testbit (N.shiftl v 1) w = N.testbit v (w - 1)) by (rewrite N.shiftl_spec_high' by lia; reflexivity). split.
  - apply bound_of_bits. intros i Hi. subst s. destruct (N.eq_dec i w) as [->|Ni].
    + destruct (N.testbit v (w - 1)); [rewrite N.lxor_spec, T|exact T]. rewrite <- L, N.bit_log2 by exact G. reflexivity.
    + destruct (N.testbit v (w - 1)); [rewrite N.lxor_spec, (N.bits_above_log2 g i) by lia|]; rewrite Z by lia; reflexivity.
  - subst s. destruct (N.testbit v (w - 1)); [|apply congruent_refl]. exists 1. cbn [product product_pos]. rewrite (N.lxor_comm (N.shiftl v 1)), <- N.lxor_assoc, N.lxor_nilpotent, N.lxor_0_l. reflexivity.
Qed.

Lemma w_lxor w g v : 1 <= w -> N.log2 g = w -> g <> 0 -> v < 2 ^ w -> N.lxor (N.shiftl v 1 mod 2 ^ w) (if N.testbit v (w - 1) then g mod 2 ^ w else 0) = (if N.testbit v (w - 1) then N.lxor (N.shiftl v 1) g else N.shiftl v 1).
Proof.
  intros Hw L G B. destruct (msb_step w g v Hw L G B) as (S & _). cbv zeta in S. rewrite <- (N.mod_small _ _ S) at 1. destruct (N.testbit v (w - 1)); [rewrite mod_pow2_lxor; reflexivity|apply N.lxor_0_r].
Qed.
Lemma crc16_remainder l : bytes_ok l -> remainder 0x11021 (preset 16 0xffff l) (crc16 l).
Proof.
  intro F. destruct (digest_bytes 16 0x11021 crc16_bit crc16_digest ltac:(lia)) with (l := l) (v := 0xffff) as (B & C); try assumption; [| |reflexivity|split; assumption].
  - intros v B. replace (crc16_bit v) with (if N.testbit v (16 - 1) then N.lxor (N.shiftl v 1) 0x11021 else N.shiftl v 1); [apply msb_step; [lia|reflexivity|discriminate|assumption]|]. rewrite crc16_bit_alt. rewrite <- w_lxor by (reflexivity || assumption || discriminate). reflexivity.
  - reflexivity.
Qed.
Lemma iter_repeatn {A} n (f : A -> A) : forall a, Nat.iter n f a = repeatn n f a.
Proof.
  assert (H : forall n a, repeatn n f (f a) = f (repeatn n f a)). { clear. induction n as [|n IH]; intro a; cbn [repeatn]; [reflexivity|apply IH]. }
  induction n as [|n IH]; intro a; [reflexivity|]. cbn [Nat.iter nat_rect repeatn]. rewrite H. change (nat_rect _ a _ n) with (Nat.iter n f a). rewrite IH. reflexivity.
Qed.
Lemma crc64_remainder l : bytes_ok l -> remainder 0x142F0E1EBA9EA3693 (preset 64 0xffffffffffffffff l) (N.lxor (crc64we l) 0xffffffffffffffff).
Proof.
  intro F. unfold crc64we. change (2 ^ 64 - 1) with 0xffffffffffffffff. rewrite N.lxor_assoc, N.lxor_nilpotent, N.lxor_0_r.
  destruct (digest_bytes 64 0x142F0E1EBA9EA3693 crc64_step crc64_byte ltac:(lia)) with (l := l) (v := 0xffffffffffffffff) as (B & C); try assumption; [| |reflexivity|split; assumption].
  - intros v B. replace (crc64_step v) with (if N.testbit v (64 - 1) then N.lxor (N.shiftl v 1) 0x142F0E1EBA9EA3693 else N.shiftl v 1); [apply msb_step; [lia|reflexivity|discriminate|assumption]|].
    rewrite <- w_lxor by (reflexivity || assumption || discriminate). unfold crc64_step, w64. replace (2 * v) with (N.shiftl v 1) by (rewrite N.shiftl_mul_pow2; lia). change (64 - 1) with 63. destruct (N.testbit v 63); [|rewrite N.lxor_0_r; reflexivity]. rewrite mod_pow2_lxor. reflexivity.
  - intros v b _ _. unfold crc64_byte. apply iter_repeatn.
Qed.

(** * The reflected check *)
Lemma reversed_spec n : forall v i, N.testbit (reversed n v) i = (i <? N.of_nat n) && N.testbit v (N.of_nat n - 1 - i).
Proof.
  induction n as [|n IH]; intros v i; cbn [reversed]; [rewrite N.bits_0, (proj2 (N.ltb_ge _ _)) by lia; reflexivity|]. rewrite N.lxor_spec, IH, N.shiftr_spec'.
  assert (T : N.testbit (N.shiftl (N.b2n (N.testbit v 0)) (N.of_nat n)) i = (i =? N.of_nat n) && N.testbit v 0).
  { destruct (N.lt_ge_cases i (N.of_nat n)) as [H|H]; [rewrite N.shiftl_spec_low by exact H; destruct (N.eqb_spec i (N.of_nat n)); [lia|reflexivity]|]. rewrite N.shiftl_spec_high' by exact H. destruct (N.eqb_spec i (N.of_nat n)) as [->|E].
    - rewrite N.sub_diag, N.b2n_bit0. reflexivity.
    - apply (testbit_high _ 1); [destruct (N.testbit v 0); reflexivity|lia]. }
  rewrite T. clear T. destruct (N.eqb_spec i (N.of_nat n)) as [Ei|E]; [subst i|].
  - rewrite N.ltb_irrefl. rewrite (proj2 (N.ltb_lt _ _)) by lia. cbn [andb]. rewrite xorb_false_r. f_equal. lia.
  - cbn [andb]. rewrite xorb_false_l. destruct (N.ltb_spec i (N.of_nat n)) as [H|H].
    + rewrite (proj2 (N.ltb_lt _ _)) by lia. cbn [andb]. f_equal. lia.
    + rewrite (proj2 (N.ltb_ge _ _)) by lia. reflexivity.
Qed.
Lemma reversed_bound n v : reversed n v < 2 ^ N.of_nat n.
Proof. apply bound_of_bits. intros i Hi. rewrite reversed_spec, (proj2 (N.ltb_ge _ _) Hi). reflexivity. Qed.
Lemma reversed_lxor n a b : reversed n (N.lxor a b) = N.lxor (reversed n a) (reversed n b).
Proof. apply N.bits_inj. intro i. rewrite N.lxor_spec, !reversed_spec, N.lxor_spec. destruct (i <? N.of_nat n); reflexivity. Qed.
Lemma reversed_bit v : v < 2 ^ 32 -> reversed 32 (crc32_bit v) = (if N.testbit (reversed 32 v) (32 - 1) then N.lxor (N.shiftl (reversed 32 v) 1) 0x11EDC6F41 else N.shiftl (reversed 32 v) 1).
Proof.
  intro B. rewrite crc32_bit_alt, reversed_lxor. rewrite <- (w_lxor 32 0x11EDC6F41) by (try apply (reversed_bound 32); reflexivity || discriminate). rewrite (reversed_spec 32 v (32 - 1)). change (32 - 1 <? N.of_nat 32) with true. change (N.of_nat 32 - 1 - (32 - 1)) with 0. cbn [andb]. f_equal; [|destruct (N.testbit v 0); reflexivity].
  apply N.bits_inj. intro i. rewrite reversed_spec, N.shiftr_spec'. change (N.of_nat 32) with 32. destruct (N.ltb_spec i 32) as [H|H].
  - rewrite N.mod_pow2_bits_low by exact H. cbn [andb]. destruct (N.eq_dec i 0) as [->|Ni].
    + rewrite N.shiftl_spec_low by lia. apply (testbit_high _ 32); [exact B|lia].
    + rewrite N.shiftl_spec_high' by lia. rewrite reversed_spec. change (N.of_nat 32) with 32. rewrite (proj2 (N.ltb_lt _ _)) by lia. cbn [andb]. f_equal. lia.
  - rewrite N.mod_pow2_bits_high by exact H. reflexivity.
Qed.
Lemma reversed_reversed v : v < 2 ^ 32 -> reversed 32 (reversed 32 v) = v.
Proof.
  intro B. apply N.bits_inj. intro i. rewrite !reversed_spec. change (N.of_nat 32) with 32. destruct (N.ltb_spec i 32) as [H|H]; cbn [andb].
  - rewrite (proj2 (N.ltb_lt _ _)) by lia. cbn [andb]. f_equal. lia.
  - symmetry. apply (testbit_high _ 32); assumption.
Qed.
Lemma reversed_byte b : is_byte b -> reversed 32 b = N.shiftl (reversed 8 b) (32 - 8).
Proof.
  intro B. apply N.bits_inj. intro i. rewrite reversed_spec. change (N.of_nat 32) with 32. change (32 - 8) with 24. destruct (N.lt_ge_cases i 24) as [H|H].
  - rewrite N.shiftl_spec_low by exact H. rewrite (proj2 (N.ltb_lt _ _)) by lia. cbn [andb]. apply (testbit_high _ 8); [exact B|lia].
  - rewrite N.shiftl_spec_high' by exact H. rewrite reversed_spec. change (N.of_nat 8) with 8. destruct (N.ltb_spec i 32) as [L|L].
    + rewrite (proj2 (N.ltb_lt _ _)) by lia. cbn [andb]. f_equal. lia.
    + rewrite (proj2 (N.ltb_ge _ _)) by lia. reflexivity.
Qed.
Lemma reversed8 b : is_byte b -> reversed 8 (reversed 8 b) = b.
Proof.
  intro B. apply N.bits_inj. intro i. rewrite !reversed_spec. change (N.of_nat 8) with 8. destruct (N.ltb_spec i 8) as [H|H]; cbn [andb]; [rewrite (proj2 (N.ltb_lt _ _)) by lia; cbn [andb]; f_equal; lia|symmetry; apply (testbit_high _ 8); assumption].
Qed.
Definition step32 (v : N) : N := reversed 32 (crc32_bit (reversed 32 v)).
Definition digest32 (v b : N) : N := reversed 32 (crc32_digest (reversed 32 v) (reversed 8 b)).
Lemma steps32 n : forall v, v < 2 ^ 32 -> reversed 32 (repeatn n crc32_bit v) = repeatn n step32 (reversed 32 v).
Proof. induction n as [|n IH]; intros v B; cbn [repeatn]; [reflexivity|]. rewrite IH by (apply crc32_bit_bound, B). unfold step32 at 3. rewrite reversed_reversed by exact B. reflexivity. Qed.
Lemma digest32_right v b : v < 2 ^ 32 -> is_byte b -> digest32 v b = repeatn 8 step32 (N.lxor v (N.shiftl b (32 - 8))).
Proof.
  intros Bv Bb. unfold digest32, crc32_digest. assert (B8 : reversed 8 b < 2 ^ 8) by apply (reversed_bound 8).
  rewrite steps32 by (apply lxor_bound; [apply (reversed_bound 32)|eapply N.lt_trans; [exact B8|reflexivity] ]). rewrite reversed_lxor, reversed_reversed by exact Bv. rewrite reversed_byte, reversed8 by assumption. reflexivity.
Qed.
Lemma digest32_step v b : v < 2 ^ 32 -> is_byte b -> digest32 (reversed 32 v) (reversed 8 b) = reversed 32 (crc32_digest v b).
Proof. intros B Bb. unfold digest32. rewrite reversed_reversed by exact B. rewrite reversed8 by exact Bb. reflexivity. Qed.
Lemma digests32 l : bytes_ok l -> forall v, v < 2 ^ 32 -> forall f, (forall v b, f v b = digest32 v b) -> reversed 32 (fold_left crc32_digest l v) = fold_left f (map (reversed 8) l) (reversed 32 v).
Proof.
  intros F v B f E. remember (reversed 32 v) as x eqn:X. remember (fold_left crc32_digest l v) as y eqn:Y. remember (fold_left f (map (reversed 8) l) x) as z eqn:Z. revert v B x X y Y z Z.
  induction F as [|b l Fb F IH]; intros v B x X y Y z Z; [cbn [fold_left map] in *; subst y z; symmetry; exact X|]. cbn [fold_left map] in Y, Z. apply (IH (crc32_digest v b) ltac:(apply crc32_digest_bound; assumption) (f x (reversed 8 b))); [|exact Y|exact Z]. rewrite E, X. apply digest32_step; assumption.
Qed.
Lemma reversed_initial : reversed 32 crc32_new = 0xffffffff. Proof. vm_compute. reflexivity. Qed.
Lemma crc32_remainder l : bytes_ok l -> remainder 0x11EDC6F41 (preset 32 0xffffffff (map (reversed 8) l)) (reversed 32 (N.lxor (crc32 l) 0xffffffff)).
Proof.
  intro F. unfold crc32, crc32_get, CRC32_XOR. rewrite N.lxor_assoc, N.lxor_nilpotent, N.lxor_0_r. unfold crc32_digest_bytes. rewrite (digests32 l F crc32_new crc32_new_bound digest32 (fun v b => eq_refl)), reversed_initial.
  apply (digest_bytes 32 0x11EDC6F41 step32 digest32).
  - lia.
  - intros v B. unfold step32. rewrite reversed_bit by apply (reversed_bound 32). rewrite reversed_reversed by exact B. apply msb_step; [lia|reflexivity|discriminate|assumption].
  - apply digest32_right.
  - reflexivity.
  - clear F. induction l as [|b l IH]; constructor; [apply (reversed_bound 8)|exact IH].
Qed.
