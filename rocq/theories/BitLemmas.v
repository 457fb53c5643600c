(** General lemmas about bits of [N], bounds, and bytes. *)
From Verif Require Import Base.

Lemma land_1_testbit v : negb (N.eqb (N.land v 1) 0) = N.testbit v 0.
Proof.
  change 1 with (N.ones 1). rewrite N.land_ones, N.bit0_odd.
  change (2 ^ 1) with 2.
  rewrite <- N.bit0_mod, N.bit0_odd. destruct (N.odd v); reflexivity.
Qed.

Lemma land_pow2_testbit v k : negb (N.eqb (N.land v (2 ^ k)) 0) = N.testbit v k.
Proof.
  destruct (N.eqb_spec (N.land v (2 ^ k)) 0) as [H|H]; simpl.
  - symmetry. assert (E : N.testbit (N.land v (2 ^ k)) k = false) by (rewrite H; apply N.bits_0).
    rewrite N.land_spec, N.pow2_bits_true, andb_true_r in E. exact E.
  - destruct (N.testbit v k) eqn:E; [reflexivity|]. exfalso; apply H.
    apply N.bits_inj; intro i. rewrite N.land_spec, N.bits_0.
    destruct (N.eq_dec k i) as [->|Hne].
    + rewrite E; reflexivity.
    + rewrite N.pow2_bits_false by congruence. apply andb_false_r.
Qed.

Lemma testbit_high n k i : n < 2 ^ k -> k <= i -> N.testbit n i = false.
Proof.
  intros Hn Hi. destruct (N.eq_dec n 0) as [->|Hz]; [apply N.bits_0|].
  apply N.bits_above_log2. apply N.log2_lt_pow2; [lia|].
  apply N.lt_le_trans with (2 ^ k); [exact Hn|]. apply N.pow_le_mono_r; lia.
Qed.

Lemma bound_of_bits n k : (forall i, k <= i -> N.testbit n i = false) -> n < 2 ^ k.
Proof.
  intro H. assert (E : n = n mod 2 ^ k).
  { apply N.bits_inj; intro i. rewrite <- N.land_ones, N.land_spec.
    destruct (N.lt_ge_cases i k).
    - rewrite N.ones_spec_low by lia. rewrite andb_true_r; reflexivity.
    - rewrite H by lia. reflexivity. }
  rewrite E. apply N.mod_lt. apply N.pow_nonzero. discriminate.
Qed.

Lemma lxor_bound a b k : a < 2 ^ k -> b < 2 ^ k -> N.lxor a b < 2 ^ k.
Proof.
  intros Ha Hb. apply bound_of_bits. intros i Hi.
  rewrite N.lxor_spec, (testbit_high a k i), (testbit_high b k i) by assumption. reflexivity.
Qed.

Lemma lor_bound a b k : a < 2 ^ k -> b < 2 ^ k -> N.lor a b < 2 ^ k.
Proof.
  intros Ha Hb. apply bound_of_bits. intros i Hi.
  rewrite N.lor_spec, (testbit_high a k i), (testbit_high b k i) by assumption. reflexivity.
Qed.

Lemma land_bound a b k : a < 2 ^ k -> N.land a b < 2 ^ k.
Proof.
  intros Ha. apply bound_of_bits. intros i Hi.
  rewrite N.land_spec, (testbit_high a k i) by assumption. reflexivity.
Qed.

Lemma land_bound_r a b k : b < 2 ^ k -> N.land a b < 2 ^ k.
Proof. intros. rewrite N.land_comm. apply land_bound. assumption. Qed.

Lemma shiftr_bound a j k : a < 2 ^ (k + j) -> N.shiftr a j < 2 ^ k.
Proof.
  intros Ha. apply bound_of_bits. intros i Hi.
  rewrite N.shiftr_spec by lia. apply testbit_high with (k + j); [assumption|lia].
Qed.

Lemma shiftl_bound a j k : a < 2 ^ k -> N.shiftl a j < 2 ^ (k + j).
Proof.
  intros Ha. rewrite N.shiftl_mul_pow2, N.pow_add_r.
  apply N.mul_lt_mono_pos_r; [|assumption]. apply N.neq_0_lt_0, N.pow_nonzero. discriminate.
Qed.

(** Disjoint [lor] is addition: low part below [2^k], high part a multiple of [2^k]. *)
Lemma lor_shiftl_add a b k : a < 2 ^ k -> N.lor a (N.shiftl b k) = a + b * 2 ^ k.
Proof.
  intro Ha. rewrite <- N.shiftl_mul_pow2. symmetry. 
  rewrite <- N.lxor_lor.
  - apply N.add_nocarry_lxor.
    apply N.bits_inj; intro i. rewrite N.land_spec, N.bits_0.
    destruct (N.lt_ge_cases i k).
    + rewrite N.shiftl_spec_low by assumption. apply andb_false_r.
    + rewrite (testbit_high a k i) by assumption. reflexivity.
  - apply N.bits_inj; intro i. rewrite N.land_spec, N.bits_0.
    destruct (N.lt_ge_cases i k).
    + rewrite N.shiftl_spec_low by assumption. apply andb_false_r.
    + rewrite (testbit_high a k i) by assumption. reflexivity.
Qed.

Lemma lor_disj_add a b : N.land a b = 0 -> N.lor a b = a + b.
Proof. intro H. rewrite <- N.lxor_lor by assumption. symmetry. apply N.add_nocarry_lxor; assumption. Qed.

Lemma w_ones k n : n mod 2 ^ k = N.land n (N.ones k).
Proof. symmetry. apply N.land_ones. Qed.

Lemma mod_pow2_lxor a b k : (N.lxor a b) mod 2 ^ k = N.lxor (a mod 2 ^ k) (b mod 2 ^ k).
Proof.
  rewrite !w_ones. apply N.bits_inj; intro i.
  rewrite ?N.land_spec, ?N.lxor_spec, ?N.land_spec.
  destruct (N.testbit a i), (N.testbit b i), (N.testbit (N.ones k) i); reflexivity.
Qed.

Lemma lxor_eq_0 a b : N.lxor a b = 0 -> a = b.
Proof. apply N.lxor_eq. Qed.

(** Byte lists *)
Lemma le_bytes_length k n : length (le_bytes k n) = k.
Proof. revert n; induction k as [|k IH]; intro n; simpl; [reflexivity|now rewrite IH]. Qed.

Lemma le_bytes_ok k n : bytes_ok (le_bytes k n).
Proof.
  revert n; induction k as [|k IH]; intro n; simpl; constructor; [|apply IH].
  unfold is_byte. apply N.mod_lt. discriminate.
Qed.

Lemma from_le_le_bytes k n : from_le (le_bytes k n) = n mod 2 ^ (8 * N.of_nat k).
Proof.
  revert n; induction k as [|k IH]; intro n.
  - simpl. rewrite N.mod_1_r. reflexivity.
  - cbn [le_bytes from_le]. rewrite IH.
    replace (8 * N.of_nat (S k)) with (8 + 8 * N.of_nat k) by lia.
    rewrite N.pow_add_r. change (2 ^ 8) with 256.
    rewrite (N.mod_mul_r n 256 (2 ^ (8 * N.of_nat k))); [reflexivity|discriminate|].
    apply N.pow_nonzero. discriminate.
Qed.

Lemma from_le_bound l : bytes_ok l -> from_le l < 2 ^ (8 * N.of_nat (length l)).
Proof.
  induction 1 as [|b l Hb Hl IH]; [reflexivity|].
  cbn [from_le length]. replace (8 * N.of_nat (S (length l))) with (8 + 8 * N.of_nat (length l)) by lia.
  rewrite N.pow_add_r. change (2 ^ 8) with 256. unfold is_byte in Hb. 
  set (p := 2 ^ (8 * N.of_nat (length l))) in *. clearbody p. nia.
Qed.

Lemma le_bytes_from_le l : bytes_ok l -> le_bytes (length l) (from_le l) = l.
Proof.
  induction 1 as [|b l Hb Hl IH]; [reflexivity|].
  cbn [from_le length le_bytes]. unfold is_byte in Hb.
  assert (E1 : (b + 256 * from_le l) mod 256 = b).
  { rewrite N.mul_comm, N.mod_add by discriminate. apply N.mod_small; assumption. }
  assert (E2 : (b + 256 * from_le l) / 256 = from_le l).
  { rewrite N.mul_comm, N.div_add by discriminate. rewrite N.div_small by assumption. reflexivity. }
  rewrite E1, E2, IH. reflexivity.
Qed.

Lemma bytes_ok_app a b : bytes_ok (a ++ b) <-> bytes_ok a /\ bytes_ok b.
Proof. unfold bytes_ok. apply Forall_app. Qed.

Lemma Forall_repeat_intro {A} (P : A -> Prop) x n : P x -> Forall P (repeat x n).
Proof. intro H. induction n; simpl; constructor; auto. Qed.
