From Verif Require Import Base BitLemmas CrcModel.
Ltac Zify.zify_post_hook ::= Z.div_mod_to_equations.

(** * Linearity and injectivity of the bit steps *)

Lemma crc32_bit_alt v :
  crc32_bit v = N.lxor (N.shiftr v 1) (if N.testbit v 0 then CRC32_REFLECTED_POLY else 0).
Proof. unfold crc32_bit. rewrite land_1_testbit. destruct (N.testbit v 0); [reflexivity|]. now rewrite N.lxor_0_r. Qed.

Lemma crc16_bit_alt v :
  crc16_bit v = N.lxor (w16 (N.shiftl v 1)) (if N.testbit v 15 then CRC16_POLY else 0).
Proof.
  unfold crc16_bit. change 32768 with (2 ^ 15). rewrite land_pow2_testbit.
  destruct (N.testbit v 15); [reflexivity|]. now rewrite N.lxor_0_r.
Qed.

Lemma lxor_perm a b c d : N.lxor (N.lxor a b) (N.lxor c d) = N.lxor (N.lxor a c) (N.lxor b d).
Proof.
  apply N.bits_inj; intro i. rewrite !N.lxor_spec.
  destruct (N.testbit a i), (N.testbit b i), (N.testbit c i), (N.testbit d i); reflexivity.
Qed.

Lemma if_lxor (x y : bool) p :
  N.lxor (if x then p else 0) (if y then p else 0) = if xorb x y then p else 0.
Proof. destruct x, y; simpl; rewrite ?N.lxor_nilpotent, ?N.lxor_0_r, ?N.lxor_0_l; reflexivity. Qed.

Lemma crc32_bit_lin a b : crc32_bit (N.lxor a b) = N.lxor (crc32_bit a) (crc32_bit b).
Proof.
  rewrite !crc32_bit_alt, lxor_perm, if_lxor, N.shiftr_lxor, N.lxor_spec. reflexivity.
Qed.

Lemma crc16_bit_lin a b : crc16_bit (N.lxor a b) = N.lxor (crc16_bit a) (crc16_bit b).
Proof.
  rewrite !crc16_bit_alt, lxor_perm, if_lxor, N.shiftl_lxor, N.lxor_spec.
  unfold w16. rewrite mod_pow2_lxor. reflexivity.
Qed.

Lemma crc32_bit_bound v : v < 2 ^ 32 -> crc32_bit v < 2 ^ 32.
Proof.
  intro H. rewrite crc32_bit_alt. apply lxor_bound.
  - apply shiftr_bound. eapply N.lt_le_trans; [exact H|]. vm_compute; discriminate.
  - destruct (N.testbit v 0); reflexivity.
Qed.

Lemma crc16_bit_bound v : crc16_bit v < 2 ^ 16.
Proof.
  rewrite crc16_bit_alt. apply lxor_bound.
  - apply N.mod_lt. discriminate.
  - destruct (N.testbit v 15); reflexivity.
Qed.

Lemma crc32_bit_kernel d : d < 2 ^ 32 -> crc32_bit d = 0 -> d = 0.
Proof.
  intros Hd. rewrite crc32_bit_alt. intro H. apply lxor_eq_0 in H.
  rewrite N.shiftr_div_pow2, N.bit0_odd in H. change (2 ^ 1) with 2 in H. change (2 ^ 32) with 4294967296 in Hd.
  pose proof (N.div_mod d 2 ltac:(discriminate)) as E.
  rewrite <- N.bit0_mod, N.bit0_odd in E.
  destruct (N.odd d); unfold N.b2n, CRC32_REFLECTED_POLY in *; lia.
Qed.

Lemma crc16_bit_kernel d : d < 2 ^ 16 -> crc16_bit d = 0 -> d = 0.
Proof.
  intros Hd. rewrite crc16_bit_alt. intro H. apply lxor_eq_0 in H.
  unfold w16 in H. rewrite N.shiftl_mul_pow2 in H.
  change (2 ^ 1) with 2 in H. change (2 ^ 16) with 65536 in *.
  destruct (N.testbit d 15) eqn:E; unfold CRC16_POLY in H.
  - lia.
  - assert (Hb : d < 2 ^ 15).
    { apply bound_of_bits. intros i Hi. destruct (N.eq_dec i 15) as [->|]; [exact E|].
      apply testbit_high with 16; [exact Hd|lia]. }
    change (2 ^ 15) with 32768 in Hb. lia.
Qed.

Section Lin.
  Variable f : N -> N.
  Variable K : N.
  Hypothesis lin : forall a b, f (N.lxor a b) = N.lxor (f a) (f b).
  Hypothesis bound : forall v, v < 2 ^ K -> f v < 2 ^ K.
  Hypothesis kernel : forall d, d < 2 ^ K -> f d = 0 -> d = 0.

  Lemma rep_lin n a b : repeatn n f (N.lxor a b) = N.lxor (repeatn n f a) (repeatn n f b).
  Proof. revert a b; induction n as [|n IH]; intros; simpl; [reflexivity|]. rewrite lin. apply IH. Qed.

  Lemma rep_bound n v : v < 2 ^ K -> repeatn n f v < 2 ^ K.
  Proof. revert v; induction n as [|n IH]; intros; simpl; auto. Qed.

  Lemma rep_kernel n d : d < 2 ^ K -> repeatn n f d = 0 -> d = 0.
  Proof. revert d; induction n as [|n IH]; intros d Hd H; simpl in H; auto. Qed.

  Lemma rep_inj n a b : a < 2 ^ K -> b < 2 ^ K -> repeatn n f a = repeatn n f b -> a = b.
  Proof.
    intros Ha Hb H. apply lxor_eq_0. apply (rep_kernel n).
    - apply lxor_bound; assumption.
    - rewrite rep_lin, H. apply N.lxor_nilpotent.
  Qed.
End Lin.

Lemma repeatn_add {A} n m (f : A -> A) a : repeatn (n + m) f a = repeatn m f (repeatn n f a).
Proof. revert a; induction n as [|n IH]; intros; simpl; auto. Qed.

(** * CRC-32C *)

Lemma byte_lt32 b : is_byte b -> b < 2 ^ 32.
Proof. unfold is_byte. intro H. eapply N.lt_trans; [exact H|reflexivity]. Qed.

Lemma crc32_digest_bound v b : v < 2 ^ 32 -> is_byte b -> crc32_digest v b < 2 ^ 32.
Proof.
  intros Hv Hb. unfold crc32_digest. apply rep_bound; [apply crc32_bit_bound|].
  apply lxor_bound; [assumption|apply byte_lt32; assumption].
Qed.

Lemma crc32_bytes_bound l v : v < 2 ^ 32 -> bytes_ok l -> crc32_digest_bytes v l < 2 ^ 32.
Proof.
  intros Hv Hl. revert v Hv. induction Hl as [|b l Hb Hl IH]; intros v Hv; simpl; [assumption|].
  apply IH. apply crc32_digest_bound; assumption.
Qed.

Lemma crc32_digest_inj_state v v' b : v < 2 ^ 32 -> v' < 2 ^ 32 -> is_byte b ->
  crc32_digest v b = crc32_digest v' b -> v = v'.
Proof.
  intros Hv Hv' Hb H. unfold crc32_digest in H.
  apply (rep_inj crc32_bit 32 crc32_bit_lin crc32_bit_bound crc32_bit_kernel) in H.
  - rewrite (N.lxor_comm v), (N.lxor_comm v') in H.
    assert (E : N.lxor b (N.lxor b v) = N.lxor b (N.lxor b v')) by now rewrite H.
    rewrite <- !N.lxor_assoc, !N.lxor_nilpotent, !N.lxor_0_l in E. exact E.
  - apply lxor_bound; [assumption|apply byte_lt32; assumption].
  - apply lxor_bound; [assumption|apply byte_lt32; assumption].
Qed.

Lemma crc32_bytes_inj_state l v v' : v < 2 ^ 32 -> v' < 2 ^ 32 -> bytes_ok l ->
  crc32_digest_bytes v l = crc32_digest_bytes v' l -> v = v'.
Proof.
  intros Hv Hv' Hl. revert v v' Hv Hv'. induction Hl as [|b l Hb Hl IH]; intros v v' Hv Hv' H; simpl in H; [assumption|].
  apply IH in H; try (apply crc32_digest_bound; assumption).
  eapply crc32_digest_inj_state; eassumption.
Qed.

Definition R32 n := repeatn n crc32_bit.

(** Shifting: [8*k] bit steps of a value whose low [8*k] bits are zero is a plain shift. *)
Lemma crc32_bit_even v : crc32_bit (N.shiftl v 1) = v.
Proof.
  rewrite crc32_bit_alt. rewrite N.shiftl_spec_low by reflexivity.
  rewrite N.lxor_0_r, N.shiftr_shiftl_l by lia. apply N.shiftl_0_r.
Qed.
Lemma R32_shift n v : R32 n (N.shiftl v (N.of_nat n)) = v.
Proof.
  unfold R32. revert v; induction n as [|n IH]; intro v; [apply N.shiftl_0_r|].
  cbn [repeatn]. replace (N.of_nat (S n)) with (N.of_nat n + 1) by lia.
  rewrite <- N.shiftl_shiftl, crc32_bit_even. apply IH.
Qed.

Lemma R32_add n m a : R32 (n + m) a = R32 m (R32 n a).
Proof. apply repeatn_add. Qed.
Lemma R32_lin n a b : R32 n (N.lxor a b) = N.lxor (R32 n a) (R32 n b).
Proof. apply (rep_lin crc32_bit crc32_bit_lin). Qed.

(** Digesting up to four bytes is one linear map applied to state xor little-endian data. *)
Lemma crc32_digest_le l v :
  bytes_ok l ->
  crc32_digest_bytes v l = R32 (8 * length l) (N.lxor v (from_le l)).
Proof.
  intro Hl. revert v. induction Hl as [|b l Hb Hl IH]; intro v.
  - simpl. rewrite N.lxor_0_r. reflexivity.
  - cbn [crc32_digest_bytes fold_left]. fold (crc32_digest_bytes (crc32_digest v b) l).
    rewrite IH. unfold crc32_digest. fold (R32 8).
    replace (8 * length (b :: l))%nat with (8 + 8 * length l)%nat by (simpl; lia).
    rewrite R32_add.
    f_equal. cbn [from_le].
    assert (E : b + 256 * from_le l = N.lxor b (N.shiftl (from_le l) 8)).
    { replace (256 * from_le l) with (from_le l * 2 ^ 8) by (change (2 ^ 8) with 256; lia).
      rewrite <- lor_shiftl_add by exact Hb. symmetry. apply N.lxor_lor.
      apply N.bits_inj; intro i. rewrite N.land_spec, N.bits_0.
      destruct (N.lt_ge_cases i 8).
      + rewrite N.shiftl_spec_low by assumption. apply andb_false_r.
      + rewrite (testbit_high b 8 i) by assumption. reflexivity. }
    rewrite E, <- N.lxor_assoc, (R32_lin 8 (N.lxor v b) (N.shiftl (from_le l) 8)).
    pose proof (R32_shift 8 (from_le l)) as Hsh. change (N.of_nat 8) with 8 in Hsh. rewrite Hsh. reflexivity.
Qed.

Lemma crc32_burst_state v a b :
  v < 2 ^ 32 -> bytes_ok a -> bytes_ok b -> length a = length b -> (length a <= 4)%nat ->
  crc32_digest_bytes v a = crc32_digest_bytes v b -> a = b.
Proof.
  intros Hv Ha Hb Hlen H4 H. rewrite !crc32_digest_le, <- Hlen in H by assumption.
  assert (Ba : from_le a < 2 ^ 32).
  { eapply N.lt_le_trans; [apply from_le_bound; assumption|]. apply N.pow_le_mono_r; lia. }
  assert (Bb : from_le b < 2 ^ 32).
  { eapply N.lt_le_trans; [apply from_le_bound; assumption|]. apply N.pow_le_mono_r; lia. }
  apply (rep_inj crc32_bit 32 crc32_bit_lin crc32_bit_bound crc32_bit_kernel) in H;
    try (apply lxor_bound; assumption).
  assert (E : N.lxor v (N.lxor v (from_le a)) = N.lxor v (N.lxor v (from_le b))) by now rewrite H.
  rewrite <- !N.lxor_assoc, !N.lxor_nilpotent, !N.lxor_0_l in E.
  rewrite <- (le_bytes_from_le a), <- (le_bytes_from_le b) by assumption. rewrite E, Hlen. reflexivity.
Qed.

Lemma crc32_bytes_app v a b : crc32_digest_bytes v (a ++ b) = crc32_digest_bytes (crc32_digest_bytes v a) b.
Proof. apply fold_left_app. Qed.

Lemma crc32_new_bound : crc32_new < 2 ^ 32. Proof. reflexivity. Qed.

Lemma crc32_burst pre a b suf :
  bytes_ok pre -> bytes_ok a -> bytes_ok b -> bytes_ok suf ->
  length a = length b -> (length a <= 4)%nat -> a <> b ->
  crc32 (pre ++ a ++ suf) <> crc32 (pre ++ b ++ suf).
Proof.
  intros Hp Ha Hb Hs Hl H4 Hne H. apply Hne. unfold crc32, crc32_get in H.
  assert (E : forall x y z, N.lxor x z = N.lxor y z -> x = y).
  { intros x y z Hz. assert (N.lxor (N.lxor x z) z = N.lxor (N.lxor y z) z) as E by now rewrite Hz.
    rewrite !N.lxor_assoc, !N.lxor_nilpotent, !N.lxor_0_r in E. exact E. }
  apply E in H. rewrite !crc32_bytes_app in H.
  pose proof (crc32_bytes_bound pre crc32_new crc32_new_bound Hp) as Hv.
  apply crc32_bytes_inj_state in H; try assumption; try (apply crc32_bytes_bound; assumption).
  eapply crc32_burst_state; eassumption.
Qed.

(** * CRC-16 *)

Lemma shiftl8_bound b : is_byte b -> N.shiftl b 8 < 2 ^ 16.
Proof. intro H. apply (shiftl_bound b 8 8). exact H. Qed.

Lemma crc16_digest_bound v b : crc16_digest v b < 2 ^ 16.
Proof.
  unfold crc16_digest. change 8%nat with (7 + 1)%nat. rewrite repeatn_add. simpl. apply crc16_bit_bound.
Qed.

Lemma crc16_bytes_bound l v : v < 2 ^ 16 -> crc16_digest_bytes v l < 2 ^ 16.
Proof.
  revert v. induction l as [|b l IH]; intros v Hv; simpl; [assumption|].
  apply IH. apply crc16_digest_bound.
Qed.

Lemma lxor_cancel_r x y z : N.lxor x z = N.lxor y z -> x = y.
Proof.
  intros Hz. assert (N.lxor (N.lxor x z) z = N.lxor (N.lxor y z) z) as E by now rewrite Hz.
  rewrite !N.lxor_assoc, !N.lxor_nilpotent, !N.lxor_0_r in E. exact E.
Qed.
Lemma lxor_cancel_l x y z : N.lxor z x = N.lxor z y -> x = y.
Proof. rewrite !(N.lxor_comm z). apply lxor_cancel_r. Qed.

Lemma crc16_digest_inj_state v v' b : v < 2 ^ 16 -> v' < 2 ^ 16 -> is_byte b ->
  crc16_digest v b = crc16_digest v' b -> v = v'.
Proof.
  intros Hv Hv' Hb H. unfold crc16_digest in H.
  apply (rep_inj crc16_bit 16 crc16_bit_lin (fun v _ => crc16_bit_bound v) crc16_bit_kernel) in H.
  - eapply lxor_cancel_r; exact H.
  - apply lxor_bound; [assumption|apply shiftl8_bound; assumption].
  - apply lxor_bound; [assumption|apply shiftl8_bound; assumption].
Qed.

Lemma crc16_bytes_inj_state l v v' : v < 2 ^ 16 -> v' < 2 ^ 16 -> bytes_ok l ->
  crc16_digest_bytes v l = crc16_digest_bytes v' l -> v = v'.
Proof.
  intros Hv Hv' Hl. revert v v' Hv Hv'. induction Hl as [|b l Hb Hl IH]; intros v v' Hv Hv' H; simpl in H; [assumption|].
  apply IH in H; try apply crc16_digest_bound.
  eapply crc16_digest_inj_state; eassumption.
Qed.

(** A byte below 256 is shifted up by eight bit steps. *)
Lemma crc16_low_shift b : is_byte b -> repeatn 8 crc16_bit b = N.shiftl b 8.
Proof.
  intro Hb. unfold is_byte in Hb.
  assert (H : forallb (fun b => N.eqb (repeatn 8 crc16_bit b) (N.shiftl b 8))
                      (map N.of_nat (seq 0 256)) = true) by (vm_compute; reflexivity).
  rewrite forallb_forall in H. specialize (H b). apply N.eqb_eq, H.
  apply in_map_iff. exists (N.to_nat b). split; [lia|]. apply in_seq. lia.
Qed.

Lemma crc16_two v a b : is_byte a -> is_byte b ->
  crc16_digest (crc16_digest v a) b = repeatn 16 crc16_bit (N.lxor v (N.lxor (N.shiftl a 8) b)).
Proof.
  intros Ha Hb. unfold crc16_digest. rewrite <- (crc16_low_shift b Hb).
  rewrite <- (rep_lin crc16_bit crc16_bit_lin), <- repeatn_add, N.lxor_assoc. reflexivity.
Qed.

Lemma crc16_bytes_app v a b : crc16_digest_bytes v (a ++ b) = crc16_digest_bytes (crc16_digest_bytes v a) b.
Proof. apply fold_left_app. Qed.

Lemma crc16_new_bound : crc16_new < 2 ^ 16. Proof. reflexivity. Qed.

Lemma shiftl_low_disj a b : b < 256 -> N.lxor (N.shiftl a 8) b = b + a * 256.
Proof.
  intro Hb. rewrite N.lxor_comm. change 256 with (2 ^ 8). rewrite <- lor_shiftl_add by exact Hb.
  apply N.lxor_lor. apply N.bits_inj; intro i. rewrite N.land_spec, N.bits_0.
  destruct (N.lt_ge_cases i 8).
  + rewrite N.shiftl_spec_low by assumption. apply andb_false_r.
  + rewrite (testbit_high b 8 i) by assumption. reflexivity.
Qed.

Lemma crc16_bytes_1 v a : crc16_digest_bytes v [a] = crc16_digest v a.
Proof. reflexivity. Qed.
Lemma crc16_bytes_2 v a b : crc16_digest_bytes v [a; b] = crc16_digest (crc16_digest v a) b.
Proof. reflexivity. Qed.
Lemma crc16_digest_eq v b : crc16_digest v b = repeatn 8 crc16_bit (N.lxor v (N.shiftl b 8)).
Proof. reflexivity. Qed.

Lemma crc16_burst_state v a b :
  v < 2 ^ 16 -> bytes_ok a -> bytes_ok b -> length a = length b -> (length a <= 2)%nat ->
  crc16_digest_bytes v a = crc16_digest_bytes v b -> a = b.
Proof.
  intros Hv Ha Hb Hlen H2 H.
  assert (Hsb : forall x, is_byte x -> N.shiftl x 8 < 2 ^ 16) by (intros; apply shiftl8_bound; assumption).
  destruct a as [|a1 [|a2 [|]]], b as [|b1 [|b2 [|]]]; simpl in Hlen, H2; try lia; try reflexivity.
  - inversion Ha as [|? ? Ha1 _]; inversion Hb as [|? ? Hb1 _]; subst. rewrite !crc16_bytes_1, !crc16_digest_eq in H.
    apply (rep_inj crc16_bit 16 crc16_bit_lin (fun v _ => crc16_bit_bound v) crc16_bit_kernel) in H;
      try (apply lxor_bound; auto).
    apply lxor_cancel_l in H. rewrite !N.shiftl_mul_pow2 in H. change (2 ^ 8) with 256 in H. f_equal. lia.
  - inversion Ha as [|? ? Ha1 Ha']; inversion Ha' as [|? ? Ha2 _]; subst.
    inversion Hb as [|? ? Hb1 Hb']; inversion Hb' as [|? ? Hb2 _]; subst.
    rewrite !crc16_bytes_2, !crc16_two in H by assumption.
    assert (B : forall x y, is_byte x -> is_byte y -> N.lxor v (N.lxor (N.shiftl x 8) y) < 2 ^ 16).
    { intros x y Hx Hy. apply lxor_bound; [assumption|]. apply lxor_bound; [auto|].
      eapply N.lt_trans; [exact Hy|reflexivity]. }
    apply (rep_inj crc16_bit 16 crc16_bit_lin (fun v _ => crc16_bit_bound v) crc16_bit_kernel) in H; auto.
    apply lxor_cancel_l in H. unfold is_byte in *. rewrite !shiftl_low_disj in H by assumption.
    assert (a2 = b2 /\ a1 = b1) as [-> ->] by lia. reflexivity.
Qed.

Lemma crc16_burst pre a b suf :
  bytes_ok pre -> bytes_ok a -> bytes_ok b -> bytes_ok suf ->
  length a = length b -> (length a <= 2)%nat -> a <> b ->
  crc16 (pre ++ a ++ suf) <> crc16 (pre ++ b ++ suf).
Proof.
  intros Hp Ha Hb Hs Hl H4 Hne H. apply Hne. unfold crc16 in H.
  rewrite !crc16_bytes_app in H.
  pose proof (crc16_bytes_bound pre crc16_new crc16_new_bound) as Hv.
  apply crc16_bytes_inj_state in H; try assumption; try (apply crc16_bytes_bound; assumption).
  eapply crc16_burst_state; eassumption.
Qed.

Lemma repeatn_0 n : repeatn n crc16_bit 0 = 0.
Proof. induction n as [|n IH]; [reflexivity|]. simpl. replace (crc16_bit 0) with 0 by reflexivity. exact IH. Qed.

(** Digesting the register itself, big-endian, gives zero. *)
Lemma crc16_residue_state s : s < 2 ^ 16 ->
  crc16_digest (crc16_digest s (s / 256)) (s mod 256) = 0.
Proof.
  intro Hs. change (2 ^ 16) with 65536 in Hs.
  assert (Ha : is_byte (s / 256)) by (unfold is_byte; lia).
  assert (Hb : is_byte (s mod 256)) by (unfold is_byte; lia).
  rewrite crc16_two by assumption. rewrite shiftl_low_disj by exact Hb.
  replace (s mod 256 + s / 256 * 256) with s by lia.
  rewrite N.lxor_nilpotent. apply repeatn_0.
Qed.

Lemma be16 n : be_bytes 2 n = [(n / 256) mod 256; n mod 256].
Proof. reflexivity. Qed.

Lemma crc16_residue data : crc16 (data ++ be_bytes 2 (crc16 data)) = 0.
Proof.
  unfold crc16 at 1. rewrite crc16_bytes_app. fold (crc16 data).
  assert (B : crc16 data < 2 ^ 16) by (apply crc16_bytes_bound; reflexivity).
  rewrite be16, crc16_bytes_2.
  change (2 ^ 16) with 65536 in B.
  replace (crc16 data / 256 mod 256) with (crc16 data / 256) by lia.
  apply crc16_residue_state. exact B.
Qed.

(** Conversely: residue zero after two more bytes means those bytes are the CRC. *)
Lemma crc16_residue_inv data a b : is_byte a -> is_byte b ->
  crc16 (data ++ [a; b]) = 0 -> [a; b] = be_bytes 2 (crc16 data).
Proof.
  intros Ha Hb H. pose proof (crc16_residue data) as H0. rewrite <- H in H0.
  unfold crc16 at 1 3 in H0. rewrite !crc16_bytes_app in H0.
  symmetry. apply crc16_burst_state in H0; auto.
  - apply crc16_bytes_bound; reflexivity.
  - unfold be_bytes. apply Forall_rev. apply le_bytes_ok.
  - repeat constructor; assumption.
Qed.

(** * The tracker *)

Definition last4 (l : list N) : list N := skipn (length l - 4) l.
Definition but_last4 (l : list N) : list N := firstn (length l - 4) l.

(** The little-endian value of the last four bytes of [0;0;0;0] ++ seen *)
Definition tr_inv (seen : list N) (t : tracker) : Prop :=
  tr_crc t = crc32_digest_bytes crc32_new (but_last4 seen) /\
  tr_last t = from_le (last4 ([0;0;0;0] ++ seen)) /\
  tr_count t = N.min 255 (N.of_nat (length seen)).

Lemma last4_app4 (l : list N) w x y z : last4 (l ++ [w; x; y; z]) = [w; x; y; z].
Proof.
  unfold last4. rewrite app_length. cbn [length].
  replace (length l + 4 - 4)%nat with (length l) by lia.
  rewrite skipn_app, skipn_all, Nat.sub_diag. reflexivity.
Qed.

Lemma but_last4_app4 (l : list N) w x y z : but_last4 (l ++ [w; x; y; z]) = l.
Proof.
  unfold but_last4. rewrite app_length. cbn [length].
  replace (length l + 4 - 4)%nat with (length l) by lia.
  rewrite firstn_app, firstn_all, Nat.sub_diag. simpl. apply app_nil_r.
Qed.

(** Every list of at least four elements ends in four elements. *)
Lemma split4 (l : list N) : (4 <= length l)%nat -> exists p w x y z, l = p ++ [w; x; y; z].
Proof.
  intro H. exists (but_last4 l).
  assert (E : l = but_last4 l ++ last4 l) by (symmetry; apply firstn_skipn).
  assert (L : length (last4 l) = 4%nat) by (unfold last4; rewrite skipn_length; lia).
  destruct (last4 l) as [|w [|x [|y [|z [|]]]]]; simpl in L; try lia. eauto 10.
Qed.

Lemma tracker_digest_inv seen t b :
  bytes_ok seen -> is_byte b -> tr_inv seen t ->
  tr_inv (seen ++ [b]) (fst (tracker_digest t b)) /\
  snd (tracker_digest t b) = (if (4 <=? length seen)%nat then nth_error seen (length seen - 4) else None).
Proof.
  intros Hs Hb (Hc & Hl & Hn).
  (* seen padded by four zero bytes always ends in four elements *)
  destruct (split4 ([0;0;0;0] ++ seen)) as (p & w & x & y & z & E); [rewrite app_length; simpl; lia|].
  rewrite E, last4_app4 in Hl.
  assert (Hok : bytes_ok (p ++ [w; x; y; z])).
  { rewrite <- E. apply bytes_ok_app. split; [repeat constructor|assumption]. }
  apply bytes_ok_app in Hok. destruct Hok as [Hp Hw].
  assert (Hwb : w < 256 /\ x < 256 /\ y < 256 /\ z < 256).
  { unfold bytes_ok in Hw. repeat rewrite Forall_cons_iff in Hw. unfold is_byte in Hw. tauto. }
  destruct Hwb as (Hw1 & Hx1 & Hy1 & Hz1). unfold is_byte in Hb.
  assert (Elast : N.lor (N.shiftl b 24) (N.shiftr (from_le [w; x; y; z]) 8) = from_le [x; y; z; b]).
  { rewrite N.shiftr_div_pow2. change (2 ^ 8) with 256. cbn [from_le].
    replace ((w + 256 * (x + 256 * (y + 256 * (z + 256 * 0)))) / 256) with (x + 256 * (y + 256 * z)) by lia.
    rewrite N.lor_comm, lor_shiftl_add; [change (2 ^ 24) with 16777216; lia|].
    change (2 ^ 24) with 16777216. lia. }
  assert (Elow : w8 (from_le [w; x; y; z]) = w).
  { unfold w8. change (2 ^ 8) with 256. cbn [from_le]. lia. }
  assert (E' : [0;0;0;0] ++ seen ++ [b] = (p ++ [w]) ++ [x; y; z; b]).
  { rewrite app_assoc, E, <- !app_assoc. reflexivity. }
  assert (Hlen : (length seen = length p)%nat).
  { apply (f_equal (@length N)) in E. rewrite !app_length in E. simpl in E. lia. }
  unfold tracker_digest, tr_inv. cbn [fst snd tr_crc tr_last tr_count].
  assert (Hcnt : N.leb 4 (tr_count t) = (4 <=? length seen)%nat) by (rewrite Hn; lia).
  rewrite Hcnt, Hl, Elow, Elast.
  destruct (Nat.leb_spec 4 (length seen)) as [Hge|Hlt].
  - destruct p as [|p0 [|p1 [|p2 [|p3 p']]]]; cbn [length] in Hlen; try lia.
    cbn [app] in E. injection E as <- <- <- <- E.
    assert (Hn4 : nth_error seen (length seen - 4) = Some w).
    { rewrite E, app_length. cbn [length]. replace (length p' + 4 - 4)%nat with (length p') by lia.
      rewrite nth_error_app2, Nat.sub_diag by lia. reflexivity. }
    repeat split.
    + rewrite Hc, E, but_last4_app4, <- app_assoc.
      cbn [app]. replace (p' ++ [w; x; y; z; b]) with ((p' ++ [w]) ++ [x; y; z; b]) by (rewrite <- app_assoc; reflexivity).
      rewrite but_last4_app4, crc32_bytes_app. reflexivity.
    + rewrite E', last4_app4. reflexivity.
    + rewrite app_length. simpl. lia.
    + symmetry; exact Hn4.
  - repeat split.
    + rewrite Hc. unfold but_last4. rewrite app_length. cbn [length].
      replace (length seen - 4)%nat with 0%nat by lia. replace (length seen + 1 - 4)%nat with 0%nat by lia. reflexivity.
    + rewrite E', last4_app4. reflexivity.
    + rewrite app_length. simpl. lia.
Qed.

Lemma tracker_run_inv bs : forall seen t,
  bytes_ok seen -> bytes_ok bs -> tr_inv seen t ->
  tr_inv (seen ++ bs) (fst (tracker_run t bs)) /\
  but_last4 seen ++ snd (tracker_run t bs) = but_last4 (seen ++ bs).
Proof.
  induction bs as [|b bs IH]; intros seen t Hs Hb Hi.
  - simpl. rewrite !app_nil_r. auto.
  - inversion Hb as [|? ? Hb1 Hb2]; subst.
    destruct (tracker_digest_inv seen t b Hs Hb1 Hi) as [Hi' Ho].
    cbn [tracker_run]. destruct (tracker_digest t b) as [t' o]. cbn [fst snd] in *.
    assert (Hs' : bytes_ok (seen ++ [b])) by (apply bytes_ok_app; split; [assumption|repeat constructor; assumption]).
    specialize (IH (seen ++ [b]) t' Hs' Hb2 Hi').
    destruct (tracker_run t' bs) as [t'' out]. cbn [fst snd] in *.
    rewrite <- app_assoc in IH. cbn [app] in IH. destruct IH as [IH1 IH2]. split; [exact IH1|].
    rewrite <- IH2. destruct (Nat.leb_spec 4 (length seen)) as [Hge|Hlt].
    + destruct (split4 seen Hge) as (p & w & x & y & z & ->).
      rewrite app_length in Ho. cbn [length] in Ho. replace (length p + 4 - 4)%nat with (length p) in Ho by lia.
      rewrite nth_error_app2, Nat.sub_diag in Ho by lia. simpl in Ho. subst o.
      rewrite but_last4_app4, <- app_assoc. cbn [app].
      replace (p ++ [w; x; y; z; b]) with ((p ++ [w]) ++ [x; y; z; b]) by (rewrite <- app_assoc; reflexivity).
      rewrite but_last4_app4, <- app_assoc. reflexivity.
    + subst o. unfold but_last4 at 1 2. rewrite app_length. cbn [length].
      replace (length seen - 4)%nat with 0%nat by lia. replace (length seen + 1 - 4)%nat with 0%nat by lia. reflexivity.
Qed.

Lemma tr_inv_new : tr_inv [] tracker_new.
Proof. repeat split. Qed.

Lemma crc32_bound bs : bytes_ok bs -> crc32 bs < 2 ^ 32.
Proof. intro H. unfold crc32, crc32_get. apply lxor_bound; [apply crc32_bytes_bound; [reflexivity|assumption]|reflexivity]. Qed.

Lemma tracker_spec bs :
  bytes_ok bs ->
  let '(t, out) := tracker_run tracker_new bs in
  out = but_last4 bs /\
  (tracker_correct t = true <->
   exists data, bs = data ++ le_bytes 4 (crc32 data)).
Proof.
  intro Hb. pose proof (tracker_run_inv bs [] tracker_new ltac:(constructor) Hb tr_inv_new) as [Hi Ho].
  destruct (tracker_run tracker_new bs) as [t out]. cbn [fst snd app] in *.
  split; [exact Ho|]. destruct Hi as (Hc & Hl & Hn). unfold tracker_correct.
  assert (Hcnt : N.leb 4 (tr_count t) = (4 <=? length bs)%nat) by (rewrite Hn; lia).
  rewrite Hcnt, Hc, Hl. fold (crc32 (but_last4 bs)).
  split.
  - intro H. apply andb_prop in H. destruct H as [H1 H2]. apply Nat.leb_le in H1. apply N.eqb_eq in H2.
    exists (but_last4 bs). destruct (split4 bs H1) as (p & w & x & y & z & ->).
    rewrite app_assoc, last4_app4 in H2. rewrite but_last4_app4 in *. f_equal. rewrite H2.
    symmetry. apply (le_bytes_from_le [w; x; y; z]). apply bytes_ok_app in Hb. tauto.
  - intros (data & ->). rewrite app_length, le_bytes_length.
    apply andb_true_intro. split; [apply Nat.leb_le; lia|]. apply N.eqb_eq.
    remember (le_bytes 4 (crc32 data)) as q eqn:Eq. pose proof (le_bytes_length 4 (crc32 data)) as Hq.
    rewrite <- Eq in Hq. destruct q as [|w [|x [|y [|z [|]]]]]; simpl in Hq; try lia.
    rewrite app_assoc, last4_app4, but_last4_app4, Eq, from_le_le_bytes.
    symmetry. apply N.mod_small. apply crc32_bound. apply bytes_ok_app in Hb. tauto.
Qed.

(** * Acceptance by residue: bursts straddling data and CRC *)

Definition R32K : N := R32 32 CRC32_XOR.

Lemma crc32_residue_iff data q :
  bytes_ok data -> bytes_ok q -> length q = 4%nat ->
  (q = le_bytes 4 (crc32 data) <-> crc32_digest_bytes crc32_new (data ++ q) = R32K).
Proof.
  intros Hd Hq Hl. rewrite crc32_bytes_app.
  pose proof (crc32_bytes_bound data crc32_new crc32_new_bound Hd) as Hv.
  unfold crc32, crc32_get. set (v := crc32_digest_bytes crc32_new data) in *.
  assert (Hx : N.lxor v CRC32_XOR < 2 ^ 32) by (apply lxor_bound; [exact Hv|reflexivity]).
  assert (E : crc32_digest_bytes v (le_bytes 4 (N.lxor v CRC32_XOR)) = R32K).
  { rewrite crc32_digest_le by apply le_bytes_ok. rewrite le_bytes_length, from_le_le_bytes.
    change (8 * N.of_nat 4) with 32. rewrite N.mod_small by exact Hx.
    rewrite <- N.lxor_assoc, N.lxor_nilpotent, N.lxor_0_l. reflexivity. }
  split; [intros ->; exact E|]. intro H. rewrite <- E in H.
  apply crc32_burst_state in H; auto.
  - apply le_bytes_ok.
  - lia.
Qed.

Definition crc32_accepts (bs : list N) : Prop := exists data, bs = data ++ le_bytes 4 (crc32 data).

Lemma crc32_accepts_residue bs : bytes_ok bs -> crc32_accepts bs -> crc32_digest_bytes crc32_new bs = R32K.
Proof.
  intros Hb (data & ->). apply bytes_ok_app in Hb as [Hd Hq]. apply crc32_residue_iff; auto.
Qed.

Lemma crc32_accept_burst pre a b suf :
  bytes_ok (pre ++ a ++ suf) -> bytes_ok (pre ++ b ++ suf) ->
  length a = length b -> (length a <= 4)%nat ->
  crc32_accepts (pre ++ a ++ suf) -> crc32_accepts (pre ++ b ++ suf) -> a = b.
Proof.
  intros H1 H2 Hl H4 A1 A2.
  apply crc32_accepts_residue in A1; [|assumption]. apply crc32_accepts_residue in A2; [|assumption].
  rewrite <- A2 in A1. rewrite !bytes_ok_app in H1, H2. rewrite !crc32_bytes_app in A1.
  destruct H1 as (Hp & Ha & Hs), H2 as (_ & Hb & _).
  pose proof (crc32_bytes_bound pre crc32_new crc32_new_bound Hp) as Hv.
  apply crc32_bytes_inj_state in A1; try assumption; try (apply crc32_bytes_bound; assumption).
  eapply crc32_burst_state; eassumption.
Qed.

Lemma crc16_accept_burst pre a b suf :
  bytes_ok (pre ++ a ++ suf) -> bytes_ok (pre ++ b ++ suf) ->
  length a = length b -> (length a <= 2)%nat ->
  crc16 (pre ++ a ++ suf) = 0 -> crc16 (pre ++ b ++ suf) = 0 -> a = b.
Proof.
  intros H1 H2 Hl H4 A1 A2. rewrite !bytes_ok_app in H1, H2.
  destruct (list_eq_dec N.eq_dec a b) as [|Hne]; [assumption|exfalso].
  apply (crc16_burst pre a b suf) in Hne; try tauto. congruence.
Qed.
