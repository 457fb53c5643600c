(** Proofs about the read cursor. *)
From Verif Require Import Base BitLemmas EncModel EncSpec EncWriteProofs.
Ltac Zify.zify_post_hook ::= Z.div_mod_to_equations.

Lemma value_of_testbit bits : forall j, N.testbit (value_of bits) (N.of_nat j) = nth j bits false.
Proof.
  induction bits as [|b bits IH]; intro j; unfold value_of; cbn [fold_right].
  - rewrite N.bits_0. destruct j; reflexivity.
  - fold (value_of bits). destruct j as [|j]; cbn [nth].
    + change (N.of_nat 0) with 0. apply N.add_b2n_double_bit0.
    + rewrite Nat2N.inj_succ, <- N.div2_bits, N.add_b2n_double_div2. apply IH.
Qed.
Lemma nth_map_seq (f : nat -> bool) p n j : nth j (map f (seq p n)) false = (j <? n)%nat && f (p + j)%nat.
Proof.
  destruct (Nat.ltb_spec j n).
  - rewrite (nth_indep _ false (f O)) by (rewrite map_length, seq_length; lia). rewrite map_nth, seq_nth by lia. reflexivity.
  - apply nth_overflow. rewrite map_length, seq_length. lia.
Qed.
Lemma field_testbit bs p n j : N.testbit (field bs p n) (N.of_nat j) = (j <? n)%nat && stream_bit bs (p + j).
Proof. unfold field. rewrite value_of_testbit. apply nth_map_seq. Qed.
Lemma bits_inj_nat a b : (forall j, N.testbit a (N.of_nat j) = N.testbit b (N.of_nat j)) -> a = b.
Proof. intro H. apply N.bits_inj. intro j. rewrite <- (N2Nat.id j). apply H. Qed.

Lemma field_app bs p a b : field bs p (a + b) = N.lor (field bs p a) (N.shiftl (field bs (p + a) b) (N.of_nat a)).
Proof.
  apply bits_inj_nat. intro j. rewrite N.lor_spec, shiftl_bits, !field_testbit.
  destruct (N.leb_spec (N.of_nat a) (N.of_nat j)).
  - replace (N.of_nat j - N.of_nat a) with (N.of_nat (j - a)) by lia. rewrite field_testbit. destruct (Nat.ltb_spec j a); [lia|]. cbn [andb orb].
    destruct (Nat.ltb_spec j (a + b)), (Nat.ltb_spec (j - a) b); cbn [andb]; try reflexivity; try lia. f_equal. lia.
  - destruct (Nat.ltb_spec j a), (Nat.ltb_spec j (a + b)); cbn [andb orb]; rewrite ?orb_false_r; try reflexivity; lia.
Qed.
Lemma field_0 bs p : field bs p 0 = 0.
Proof. reflexivity. Qed.
Lemma field_bound bs p n : field bs p n < 2 ^ N.of_nat n.
Proof.
  apply bound_of_bits. intros j Hj. rewrite <- (N2Nat.id j), field_testbit. destruct (Nat.ltb_spec (N.to_nat j) n); [lia|reflexivity].
Qed.
Lemma stream_skipn q bs i : stream_bit (skipn q bs) i = stream_bit bs (8 * q + i).
Proof.
  unfold stream_bit. replace ((8 * q + i) / 8)%nat with (q + i / 8)%nat by lia. replace ((8 * q + i) mod 8)%nat with (i mod 8)%nat by lia. f_equal.
  revert q. induction bs as [|b bs IH]; intros [|q]; cbn [skipn]; try reflexivity.
  - destruct (i / 8)%nat; destruct (S q + _)%nat; reflexivity.
  - rewrite IH. reflexivity.
Qed.
Lemma stream_firstn k bs i : (i < 8 * k)%nat -> stream_bit (firstn k bs) i = stream_bit bs i.
Proof.
  intro H. unfold stream_bit. f_equal. assert (Hk : (i / 8 < k)%nat) by lia. generalize dependent (i / 8)%nat. clear. intros q Hq. revert q bs Hq.
  induction k as [|k IH]; intros [|q] [|b bs] Hq; try lia; cbn [firstn nth]; try reflexivity. apply IH. lia.
Qed.
Lemma stream_end bs i : (8 * length bs <= i)%nat -> stream_bit bs i = false.
Proof. intro H. unfold stream_bit. rewrite nth_overflow by lia. apply N.bits_0. Qed.

Lemma skipn_skipn {A} a b (l : list A) : skipn a (skipn b l) = skipn (a + b) l.
Proof.
  revert l. induction b as [|b IH]; intro l; [rewrite Nat.add_0_r; reflexivity|]. destruct l as [|x l]; [rewrite !skipn_nil; reflexivity|].
  rewrite Nat.add_succ_r. cbn [skipn]. apply IH.
Qed.
Lemma advance_at bs p n : rc_advance (rc_at bs p) n = rc_at bs (p + n).
Proof.
  unfold rc_advance, rc_at, advance_bytes. cbn [rc_bytes rc_bit]. f_equal; [|lia].
  replace ((p + n) / 8)%nat with ((p mod 8 + n) / 8 + p / 8)%nat by lia. rewrite <- skipn_skipn.
  destruct (Nat.min_spec ((p mod 8 + n) / 8) (length (skipn (p / 8) bs))) as [(H & ->)|(H & ->)]; [reflexivity|]. rewrite !skipn_all2 by lia. reflexivity.
Qed.
Lemma current_at bs p : read_current (rc_at bs p) = nth (p / 8) bs 0.
Proof.
  unfold read_current, rc_at. cbn [rc_bytes]. generalize (p / 8)%nat. induction bs as [|b bs IH]; intros [|q]; cbn [skipn nth]; try reflexivity. apply IH.
Qed.
Lemma next_at bs p : read_next (rc_at bs p) = nth (p / 8 + 1) bs 0.
Proof.
  unfold read_next, rc_at. cbn [rc_bytes]. generalize (p / 8)%nat. induction bs as [|b bs IH]; intros [|q]; cbn [skipn nth Nat.add]; try reflexivity.
  - destruct bs; reflexivity.
  - apply IH.
Qed.

Lemma read_up_to_u8_at bs p n : bytes_ok bs -> (n <= 8)%nat -> read_up_to_u8 (rc_at bs p) n = (field bs p n, rc_at bs (p + n)).
Proof.
  intros Hb Hn. unfold read_up_to_u8. destruct (Nat.eqb_spec n 0) as [->|Hn0].
  { rewrite field_0, Nat.add_0_r. reflexivity. }
  cbv zeta. rewrite advance_at. f_equal. rewrite current_at, next_at. cbn [rc_at rc_bit]. apply bits_inj_nat. intro j.
  rewrite N.land_spec, mask_bits, field_testbit by assumption.
  replace (N.of_nat j <? N.of_nat n) with (j <? n)%nat by (destruct (Nat.ltb_spec j n), (N.ltb_spec (N.of_nat j) (N.of_nat n)); (reflexivity || lia)).
  destruct (Nat.ltb_spec j n); [|apply andb_false_r]. rewrite andb_true_r. cbn [andb]. unfold stream_bit.
  destruct (Nat.leb_spec (p mod 8) (8 - n)).
  - rewrite N.shiftr_spec'. replace ((p + j) / 8)%nat with (p / 8)%nat by lia. f_equal. lia.
  - rewrite N.lor_spec, w8_bits, shiftl_bits, N.shiftr_spec'. destruct (N.ltb_spec (N.of_nat j) 8); [|lia]. cbn [andb].
    destruct (N.leb_spec (8 - N.of_nat (p mod 8)) (N.of_nat j)); cbn [andb orb].
    + rewrite (testbit_high (nth (p / 8) bs 0) 8 _) by ((apply nth_ok, Hb) || lia). rewrite orb_false_r.
      replace ((p + j) / 8)%nat with (p / 8 + 1)%nat by lia. f_equal. lia.
    + replace ((p + j) / 8)%nat with (p / 8)%nat by lia. f_equal. lia.
Qed.

Lemma shl_ok width x s : s < width -> x < 2 ^ (width - s) -> shl width x s = Ok (N.shiftl x s).
Proof.
  intros Hs Hx. unfold shl. destruct (N.ltb_spec s width); [|lia]. f_equal. apply N.mod_small. rewrite N.shiftl_mul_pow2.
  assert (E : 2 ^ width = 2 ^ (width - s) * 2 ^ s) by (rewrite <- N.pow_add_r; f_equal; lia). rewrite E.
  apply N.mul_lt_mono_pos_r; [apply N.neq_0_lt_0, N.pow_nonzero; discriminate|assumption].
Qed.
Lemma pow2_le a b : a <= b -> 2 ^ a <= 2 ^ b.
Proof. intro. apply N.pow_le_mono_r; [discriminate|assumption]. Qed.

Lemma read_whole_bytes_at bs width : bytes_ok bs -> forall k p value shift, shift + 8 * N.of_nat k <= width ->
  read_whole_bytes width (rc_at bs p) value shift k =
    Ok (N.lor value (N.shiftl (field bs p (8 * k)) shift), rc_at bs (p + 8 * k), shift + 8 * N.of_nat k).
Proof.
  intro Hb. induction k as [|k IH]; intros p value shift Hs; cbn [read_whole_bytes].
  - change (8 * 0)%nat with O. rewrite field_0, N.shiftl_0_l, N.lor_0_r. repeat f_equal; lia.
  - rewrite read_up_to_u8_at by (assumption || lia). rewrite shl_ok; [|lia|].
    2:{ eapply N.lt_le_trans; [apply field_bound|]. apply pow2_le. lia. }
    cbn [bind]. rewrite IH by lia. f_equal. f_equal; [f_equal|lia].
    + replace (8 * S k)%nat with (8 + 8 * k)%nat by lia. rewrite field_app, N.shiftl_lor, N.shiftl_shiftl, N.lor_assoc. f_equal. f_equal. lia.
    + f_equal. lia.
Qed.

Lemma lor_split bs p n : N.lor (field bs p (8 * (n / 8))) (N.shiftl (field bs (p + 8 * (n / 8)) (n mod 8)) (8 * N.of_nat (n / 8))) = field bs p n.
Proof. replace (field bs p n) with (field bs p (8 * (n / 8) + n mod 8)) by (f_equal; lia). rewrite field_app. f_equal. f_equal. lia. Qed.

Lemma read_up_to_u32_at bs p n : bytes_ok bs -> (n < 32)%nat -> read_up_to_u32 (rc_at bs p) n = Ok (field bs p n, rc_at bs (p + n)).
Proof.
  intros Hb Hn. unfold read_up_to_u32. rewrite read_whole_bytes_at by (assumption || lia). cbn [bind]. rewrite read_up_to_u8_at by (assumption || lia). rewrite shl_ok; [|lia|].
  2:{ eapply N.lt_le_trans; [apply field_bound|]. apply pow2_le. lia. }
  cbn [bind]. rewrite N.shiftl_0_r, N.lor_0_l, N.add_0_l, lor_split. do 3 f_equal; lia.
Qed.
Lemma read_up_to_u64_at bs p n : bytes_ok bs -> (n <= 64)%nat -> read_up_to_u64 (rc_at bs p) n = Ok (field bs p n, rc_at bs (p + n)).
Proof.
  intros Hb Hn. unfold read_up_to_u64. rewrite read_whole_bytes_at by (assumption || lia). cbn [bind]. destruct (Nat.eqb_spec n 64) as [->|Hn64].
  { rewrite N.shiftl_0_r, N.lor_0_l. reflexivity. }
  rewrite read_up_to_u8_at by (assumption || lia). rewrite shl_ok; [|lia|].
  2:{ eapply N.lt_le_trans; [apply field_bound|]. apply pow2_le. lia. }
  cbn [bind]. rewrite N.shiftl_0_r, N.lor_0_l, N.add_0_l, lor_split. do 3 f_equal; lia.
Qed.
Lemma read_up_to_u16_at bs p n : bytes_ok bs -> (8 < n < 16)%nat -> read_up_to_u16 (rc_at bs p) n = Ok (field bs p n, rc_at bs (p + n)).
Proof.
  intros Hb Hn. unfold read_up_to_u16. destruct (Nat.ltb_spec 8 n); [|lia]. rewrite read_up_to_u8_at by (assumption || lia). rewrite read_up_to_u8_at by (assumption || lia). rewrite shl_ok; [|lia|].
  2:{ eapply N.lt_le_trans; [apply field_bound|]. apply pow2_le. lia. }
  cbn [bind]. pose proof (lor_split bs p n) as E. replace (n / 8)%nat with 1%nat in E by lia. change (8 * 1)%nat with 8%nat in E. change (8 * N.of_nat 1) with 8 in E. rewrite E. do 3 f_equal; lia.
Qed.

Lemma read_u_at bs p n : bytes_ok bs -> (n <= 64)%nat -> read_u (rc_at bs p) n = Ok (field bs p n, rc_at bs (p + n)).
Proof.
  intros Hb Hn. unfold read_u. destruct (Nat.leb_spec n 8); [rewrite read_up_to_u8_at by assumption; reflexivity|].
  destruct (Nat.leb_spec n 15); [apply read_up_to_u16_at; (assumption || lia)|].
  destruct (Nat.eqb_spec n 16) as [->|].
  { rewrite read_up_to_u32_at by (assumption || lia). cbn [bind fst snd]. unfold w16. rewrite N.mod_small; [reflexivity|]. apply (field_bound bs p 16). }
  destruct (Nat.leb_spec n 31); [apply read_up_to_u32_at; (assumption || lia)|].
  destruct (Nat.eqb_spec n 32) as [->|]; [|apply read_up_to_u64_at; assumption].
  rewrite read_up_to_u64_at by (assumption || lia). cbn [bind fst snd]. unfold w32. rewrite N.mod_small; [reflexivity|]. apply (field_bound bs p 32).
Qed.

Lemma field_1 bs p : field bs p 1 = N.b2n (stream_bit bs p).
Proof. unfold field. cbn [seq map value_of fold_right]. unfold value_of. cbn [fold_right]. lia. Qed.
Lemma read_bool_at bs p : bytes_ok bs -> read_bool (rc_at bs p) = Ok (stream_bit bs p, rc_at bs (p + 1)).
Proof.
  intro Hb. unfold read_bool. rewrite read_u_at by (assumption || lia). cbn [bind fst snd]. rewrite field_1. destruct (stream_bit bs p); reflexivity.
Qed.

Lemma field_byte bs p : bytes_ok bs -> (p mod 8 = 0)%nat -> field bs p 8 = nth (p / 8) bs 0.
Proof.
  intros Hb Hp. apply bits_inj_nat. intro j. rewrite field_testbit. unfold stream_bit. destruct (Nat.ltb_spec j 8); cbn [andb].
  - replace ((p + j) / 8)%nat with (p / 8)%nat by lia. f_equal. lia.
  - symmetry. apply (testbit_high _ 8); [apply nth_ok, Hb|lia].
Qed.
Lemma advance_bytes_at bs p k : advance_bytes (rc_at bs p) k = rc_at bs (p + 8 * k).
Proof.
  rewrite <- advance_at. unfold rc_advance, rc_at, advance_bytes. cbn [rc_bytes rc_bit]. replace ((p mod 8 + 8 * k) / 8)%nat with k by lia. f_equal. lia.
Qed.
Lemma aligned_at bs p : rc_aligned (rc_at bs p) = (p mod 8 =? 0)%nat.
Proof. reflexivity. Qed.
Lemma read_aligned_u8_at bs p : bytes_ok bs -> (p mod 8 = 0)%nat -> read_aligned_u8 (rc_at bs p) = Ok (field bs p 8, rc_at bs (p + 8)).
Proof.
  intros Hb Hp. unfold read_aligned_u8. rewrite aligned_at, Hp. cbn [Nat.eqb]. rewrite current_at, advance_bytes_at, field_byte by assumption. reflexivity.
Qed.
Lemma read_two_at half k bs p : (forall q, (q mod 8 = 0)%nat -> half (rc_at bs q) = Ok (field bs q (8 * k), rc_at bs (q + 8 * k))) -> (p mod 8 = 0)%nat ->
  read_two half (N.of_nat (8 * k)) (rc_at bs p) = Ok (field bs p (8 * (2 * k)), rc_at bs (p + 8 * (2 * k))).
Proof.
  intros H Hp. unfold read_two. rewrite H by assumption. cbn [bind fst snd]. rewrite H by lia. cbn [bind fst snd]. f_equal. f_equal; [|f_equal; lia].
  replace (8 * (2 * k))%nat with (8 * k + 8 * k)%nat by lia. rewrite field_app. apply N.lor_comm.
Qed.
Lemma read_aligned_at bs : bytes_ok bs -> forall p, (p mod 8 = 0)%nat ->
  read_aligned_u16 (rc_at bs p) = Ok (field bs p (8 * 2), rc_at bs (p + 8 * 2)) /\
  read_aligned_u32 (rc_at bs p) = Ok (field bs p (8 * 4), rc_at bs (p + 8 * 4)) /\
  read_aligned_u64 (rc_at bs p) = Ok (field bs p (8 * 8), rc_at bs (p + 8 * 8)).
Proof.
  intros Hb.
  assert (H16 : forall p, (p mod 8 = 0)%nat -> read_aligned_u16 (rc_at bs p) = Ok (field bs p (8 * 2), rc_at bs (p + 8 * 2))).
  { intros p Hp. apply (read_two_at read_aligned_u8 1 bs p); [|assumption]. intros q Hq. apply read_aligned_u8_at; assumption. }
  assert (H32 : forall p, (p mod 8 = 0)%nat -> read_aligned_u32 (rc_at bs p) = Ok (field bs p (8 * 4), rc_at bs (p + 8 * 4))).
  { intros p Hp. apply (read_two_at read_aligned_u16 2 bs p); [|assumption]. assumption. }
  intros p Hp. split; [apply H16, Hp|]. split; [apply H32, Hp|]. apply (read_two_at read_aligned_u32 4 bs p); assumption.
Qed.

Lemma read_bytes_at bs : bytes_ok bs -> forall k p, read_bytes (rc_at bs p) k = Ok (map (fun i => field bs (p + 8 * i) 8) (seq 0 k), rc_at bs (p + 8 * k)).
Proof.
  intro Hb. induction k as [|k IH]; intro p; cbn [read_bytes].
  - rewrite Nat.add_0_r. reflexivity.
  - rewrite read_u_at by (assumption || lia). cbn [bind fst snd]. rewrite IH. cbn [bind fst snd seq map]. rewrite <- seq_shift, map_map. f_equal. f_equal; [|f_equal; lia].
    f_equal; [f_equal; lia|]. apply map_ext. intro i. f_equal. lia.
Qed.

Lemma zero_copy_at bs p k : bytes_ok bs -> (p mod 8 = 0)%nat ->
  deserialize_zero_copy k (rc_at bs p) = Ok (map (fun i => field bs (p + 8 * i) 8) (seq 0 k), rc_at bs (p + 8 * k)).
Proof.
  intros Hb Hp. unfold deserialize_zero_copy, rc_as_bytes. replace (rc_bit (rc_at bs p)) with (p mod 8)%nat by reflexivity. rewrite Hp. cbn [Nat.eqb].
  replace (rc_bytes (rc_at bs p)) with (skipn (p / 8) bs) by reflexivity. set (m := Nat.min k (length (skipn (p / 8) bs))).
  f_equal. f_equal.
  - assert (Hm : m = Nat.min k (length bs - p / 8)) by (unfold m; rewrite skipn_length; reflexivity).
    apply (nth_ext _ _ 0 0); [rewrite app_length, firstn_length, repeat_length, map_length, seq_length, skipn_length; lia|].
    intros i Hi. rewrite app_length, firstn_length, repeat_length, skipn_length in Hi.
    rewrite (nth_indep (map _ _) 0 (field bs (p + 8 * 0) 8)) by (rewrite map_length, seq_length; lia). rewrite (map_nth (fun i => field bs (p + 8 * i) 8) (seq 0 k) O i), seq_nth by lia.
    rewrite field_byte by (assumption || lia). replace ((p + 8 * (0 + i)) / 8)%nat with (p / 8 + i)%nat by lia.
    rewrite nth_app_if, firstn_length, skipn_length. destruct (Nat.ltb_spec i (Nat.min m (length bs - p / 8))).
    + rewrite <- (firstn_skipn (p / 8) bs) at 2. rewrite app_nth2; rewrite firstn_length; [|lia]. replace (p / 8 + i - Nat.min (p / 8) (length bs))%nat with i by lia.
      rewrite <- (firstn_skipn m (skipn (p / 8) bs)) at 2. rewrite app_nth1; [reflexivity|]. rewrite firstn_length, skipn_length. lia.
    + rewrite (nth_overflow bs) by lia. apply nth_repeat.
  - rewrite advance_bytes_at. unfold rc_at. f_equal; [|lia]. unfold m. replace ((p + 8 * Nat.min k (length (skipn (p / 8) bs))) / 8)%nat with (Nat.min k (length (skipn (p / 8) bs)) + p / 8)%nat by lia.
    replace ((p + 8 * k) / 8)%nat with (k + p / 8)%nat by lia. rewrite <- !skipn_skipn.
    destruct (Nat.min_spec k (length (skipn (p / 8) bs))) as [(H & ->)|(H & ->)]; [reflexivity|]. rewrite !skipn_all2 by lia. reflexivity.
Qed.

Lemma align_at bs p : rc_align (rc_at bs p) = rc_at bs (p + length (pad8 p)).
Proof.
  rewrite pad8_length. unfold rc_align. replace (rc_bit (rc_at bs p)) with (p mod 8)%nat by reflexivity. destruct (Nat.eqb_spec (p mod 8) 0) as [E|E].
  - rewrite E. change ((8 - 0) mod 8)%nat with O. rewrite Nat.add_0_r. reflexivity.
  - rewrite advance_at. f_equal. lia.
Qed.

Lemma rstep_at bs op p : bytes_ok bs -> rops_ok p [op] -> rstep (rc_at bs p) op = Ok (rvalues bs p op, rc_at bs (p + rwidth p op)).
Proof.
  intros Hb (Ho & _). destruct op as [n| |n| |k|k|k]; cbn [rstep rvalues rwidth].
  - rewrite read_u_at by (assumption || lia). reflexivity.
  - rewrite read_bool_at, field_1 by assumption. reflexivity.
  - rewrite advance_at. reflexivity.
  - rewrite align_at. reflexivity.
  - destruct Ho as (Hp & Hk). destruct (read_aligned_at bs Hb p Hp) as (H16 & H32 & H64).
    destruct Hk as [<-|[<-|[<-|[<-|[]]]]]; [rewrite read_aligned_u8_at by assumption|rewrite H16|rewrite H32|rewrite H64]; reflexivity.
  - apply read_bytes_at, Hb.
  - apply zero_copy_at; assumption.
Qed.

Theorem rrun_at bs : bytes_ok bs -> forall ops p, rops_ok p ops -> rrun (rc_at bs p) ops = Ok (rvaluess bs p ops, rc_at bs (p + rwidths p ops)).
Proof.
  intro Hb. induction ops as [|op ops IH]; intros p Ho; cbn [rrun rvaluess rwidths].
  - rewrite Nat.add_0_r. reflexivity.
  - destruct Ho as (H1 & H2). rewrite rstep_at by (first [assumption | split; [assumption|exact I]]). cbn [bind fst snd]. rewrite IH by assumption. cbn [bind fst snd]. rewrite Nat.add_assoc. reflexivity.
Qed.

(** ** Composite values *)

Lemma fork_at bs p k : (p mod 8 = 0)%nat -> (k <= length bs - p / 8)%nat ->
  rc_fork (rc_at bs p) k = Ok (rc_new (firstn k (skipn (p / 8) bs)), rc_at bs (p + 8 * k)).
Proof.
  intros Hp Hk. unfold rc_fork, rc_at, rc_new. cbn [rc_bytes rc_bit]. rewrite Hp. cbn [Nat.eqb negb]. destruct (Nat.ltb_spec (length (skipn (p / 8) bs)) k) as [H|H]; [rewrite skipn_length in H; lia|].
  f_equal. f_equal. f_equal; [|lia]. rewrite skipn_skipn. f_equal. lia.
Qed.

Theorem read_delimited_at {A} bs p (d : deserializer A) : bytes_ok bs ->
  let p1 := (p + length (pad8 p) + 32)%nat in
  let len := field bs (p + length (pad8 p)) 32 in
  read_composite (rc_at bs p) true d =
    if N.of_nat (length bs - p1 / 8) <? len then Ok (DErr DelimitedLength, rc_at bs p1)
    else bind (d (rc_new (firstn (N.to_nat len) (skipn (p1 / 8) bs)))) (fun z => Ok (fst z, rc_at bs (p1 + 8 * N.to_nat len))).
Proof.
  intro Hb. cbv zeta. unfold read_composite. rewrite align_at. set (q := (p + length (pad8 p))%nat). assert (Hq : (q mod 8 = 0)%nat) by (unfold q; rewrite pad8_length; lia).
  rewrite (proj1 (proj2 (read_aligned_at bs Hb q Hq))). cbn [bind]. change (8 * 4)%nat with 32%nat. set (len := field bs q 32).
  replace (length (rc_bytes (rc_at bs (q + 32)))) with (length bs - (q + 32) / 8)%nat by (symmetry; apply skipn_length).
  destruct (N.ltb_spec (N.of_nat (length bs - (q + 32) / 8)) len) as [Hlt|Hge]; cbn [bind fst snd].
  - rewrite align_at. f_equal. f_equal. f_equal. rewrite pad8_length. lia.
  - rewrite fork_at by lia. cbn [bind]. destruct (d _) as [[r c']|]; [|reflexivity]. cbn [bind fst snd]. rewrite align_at. f_equal. f_equal. f_equal. rewrite pad8_length. lia.
Qed.

Theorem read_undelimited_at {A} bs p (d : deserializer A) :
  read_composite (rc_at bs p) false d = bind (d (rc_at bs (p + length (pad8 p)))) (fun x => Ok (fst x, rc_align (snd x))).
Proof. unfold read_composite. rewrite align_at. reflexivity. Qed.

(** ** Bit arrays *)

Lemma ba_set_spec a i b : ba_ok a -> (i < ba_len a)%nat ->
  exists a', ba_set a i b = Ok a' /\ ba_ok a' /\ ba_len a' = ba_len a /\ length (ba_bytes a') = length (ba_bytes a) /\
    forall j, stream_bit (ba_bytes a') j = if (j =? i)%nat then b else stream_bit (ba_bytes a) j.
Proof.
  intros (Hb & Hl) Hi. unfold ba_set, split_index. destruct (Nat.ltb_spec i (ba_len a)); [|lia]. cbn [bind fst snd]. cbv zeta.
  set (f := fun x : N => if b then N.lor x (N.shiftl 1 (N.of_nat (i mod 8))) else N.land x (N.lxor (N.shiftl 1 (N.of_nat (i mod 8))) 255)).
  pose proof (list_set_spec (ba_bytes a) (i / 8) f) as HS. pose proof (list_set_ok (ba_bytes a) (i / 8) f Hb) as Hok.
  assert (Hm : forall j, N.testbit (N.shiftl 1 (N.of_nat (i mod 8))) (N.of_nat j) = (j =? i mod 8)%nat).
  { intro j. rewrite N.shiftl_1_l, N.pow2_bits_eqb. destruct (N.eqb_spec (N.of_nat (i mod 8)) (N.of_nat j)), (Nat.eqb_spec j (i mod 8)); (reflexivity || lia). }
  assert (H255 : forall j, (j < 8)%nat -> N.testbit 255 (N.of_nat j) = true) by (intros j Hj; change 255 with (N.ones 8); apply N.ones_spec_low; lia).
  assert (Hf : forall x, x < 256 -> f x < 256).
  { intros x Hx. unfold f. destruct b.
    - apply (lor_bound _ _ 8); [assumption|]. rewrite N.shiftl_1_l. change 256 with (2 ^ 8). apply N.pow_lt_mono_r; lia.
    - apply (land_bound _ _ 8). assumption. }
  specialize (Hok Hf). destruct (list_set (ba_bytes a) (i / 8) f) as [l'|]; [|lia]. destruct HS as (H1 & H2 & H3). cbn [bind]. eexists. split; [reflexivity|]. unfold ba_ok. cbn [ba_bytes ba_len].
  split; [split; [assumption|lia]|]. split; [reflexivity|]. split; [assumption|]. intro j. unfold stream_bit. rewrite H3.
  destruct (Nat.eqb_spec (j / 8) (i / 8)) as [E|E].
  - unfold f. destruct b.
    + rewrite N.lor_spec, Hm. rewrite <- E. destruct (Nat.eqb_spec j i) as [->|Hne].
      * rewrite Nat.eqb_refl. apply orb_true_r.
      * destruct (Nat.eqb_spec (j mod 8) (i mod 8)); [lia|]. apply orb_false_r.
    + rewrite N.land_spec, N.lxor_spec, Hm, H255 by lia. rewrite <- E. destruct (Nat.eqb_spec j i) as [->|Hne].
      * rewrite Nat.eqb_refl. apply andb_false_r.
      * destruct (Nat.eqb_spec (j mod 8) (i mod 8)); [lia|]. apply andb_true_r.
  - destruct (Nat.eqb_spec j i) as [->|]; [lia|reflexivity].
Qed.

Lemma ba_read_bits_at bs : bytes_ok bs -> forall n i a p, ba_ok a -> (i + n <= ba_len a)%nat ->
  exists a', ba_read_bits a (rc_at bs p) i n = Ok (a', rc_at bs (p + n)) /\ ba_ok a' /\ ba_len a' = ba_len a /\ length (ba_bytes a') = length (ba_bytes a) /\
    forall j, stream_bit (ba_bytes a') j = if (i <=? j)%nat && (j <? i + n)%nat then stream_bit bs (p + (j - i)) else stream_bit (ba_bytes a) j.
Proof.
  intro Hb. induction n as [|n IH]; intros i a p Ha Hn; cbn [ba_read_bits].
  - exists a. rewrite Nat.add_0_r. split; [reflexivity|]. split; [assumption|]. split; [reflexivity|]. split; [reflexivity|].
    intro j. destruct (Nat.leb_spec i j), (Nat.ltb_spec j (i + 0)); try lia; reflexivity.
  - rewrite read_bool_at by assumption. cbn [bind fst snd]. destruct (ba_set_spec a i (stream_bit bs p) Ha ltac:(lia)) as (a1 & -> & Ha1 & Hl1 & Hb1 & Hs1). cbn [bind].
    destruct (IH (S i) a1 (p + 1)%nat Ha1 ltac:(lia)) as (a2 & -> & Ha2 & Hl2 & Hb2 & Hs2). exists a2. split; [do 3 f_equal; lia|]. split; [assumption|]. split; [congruence|]. split; [congruence|].
    intro j. rewrite Hs2, Hs1. destruct (Nat.leb_spec (S i) j), (Nat.leb_spec i j), (Nat.ltb_spec j (S i + n)), (Nat.ltb_spec j (i + S n)), (Nat.eqb_spec j i); try lia; cbn [andb]; try reflexivity; f_equal; lia.
Qed.

Lemma read_aligned_list_at bs : bytes_ok bs -> forall k p, (p mod 8 = 0)%nat ->
  read_aligned_list (rc_at bs p) k = Ok (map (fun i => nth (p / 8 + i) bs 0) (seq 0 k), rc_at bs (p + 8 * k)).
Proof.
  intro Hb. induction k as [|k IH]; intros p Hp; cbn [read_aligned_list].
  - rewrite Nat.add_0_r. reflexivity.
  - rewrite read_aligned_u8_at by assumption. cbn [bind fst snd]. rewrite IH by lia. cbn [bind fst snd seq map]. rewrite <- seq_shift, map_map. f_equal. f_equal; [|f_equal; lia].
    f_equal; [rewrite field_byte by assumption; f_equal; lia|]. apply map_ext. intro i. f_equal. lia.
Qed.

Lemma ba_new_ok BYTES len : (len <= 8 * BYTES)%nat ->
  exists a, ba_new BYTES len = Ok a /\ ba_ok a /\ ba_len a = len /\ length (ba_bytes a) = BYTES.
Proof.
  intro H. unfold ba_new. destruct (Nat.leb_spec len (BYTES * 8)); [|lia]. eexists. split; [reflexivity|]. unfold ba_ok. cbn [ba_bytes ba_len]. rewrite repeat_length.
  split; [|split; reflexivity]. split; [|lia]. apply Forall_forall. intros x Hx. apply repeat_spec in Hx. subst. reflexivity.
Qed.

(** what [deserialize] does, in both branches *)
Theorem ba_deserialize_at bs p BYTES len : bytes_ok bs -> (len <= 8 * BYTES)%nat ->
  exists a, ba_deserialize BYTES len (rc_at bs p) =
      Ok (a, rc_at bs (p + (if (len mod 8 =? 0)%nat && (p mod 8 =? 0)%nat then 8 * BYTES else len))) /\
    ba_ok a /\ ba_len a = len /\ length (ba_bytes a) = BYTES /\ forall j, (j < len)%nat -> stream_bit (ba_bytes a) j = stream_bit bs (p + j).
Proof.
  intros Hb Hl. unfold ba_deserialize. destruct (ba_new_ok BYTES len Hl) as (a & -> & Ha & Hlen & Hby). cbn [bind]. unfold ba_deserialize_in_place. rewrite Hlen, aligned_at, Hby.
  destruct (len mod 8 =? 0)%nat eqn:E1; cbn [andb]; [destruct (Nat.eqb_spec (p mod 8) 0) as [E2|E2]|].
  - rewrite read_aligned_list_at by assumption. cbn [bind fst snd]. eexists. split; [reflexivity|]. unfold ba_ok. cbn [ba_bytes ba_len]. rewrite map_length, seq_length.
    assert (Hn : forall k, nth k (map (fun i => nth (p / 8 + i) bs 0) (seq 0 BYTES)) 0 = if (k <? BYTES)%nat then nth (p / 8 + k) bs 0 else 0).
    { intro k. destruct (Nat.ltb_spec k BYTES).
      - rewrite (nth_indep _ 0 (nth (p / 8 + 0) bs 0)) by (rewrite map_length, seq_length; lia). rewrite (map_nth (fun i => nth (p / 8 + i) bs 0)), seq_nth by lia. reflexivity.
      - apply nth_overflow. rewrite map_length, seq_length. lia. }
    split; [|split; [reflexivity|split; [reflexivity|]]].
    + split; [|lia]. apply bytes_ok_nth. intro k. rewrite Hn. destruct (k <? BYTES)%nat; [apply nth_ok, Hb|lia].
    + intros j Hj. unfold stream_bit. rewrite Hn. destruct (Nat.ltb_spec (j / 8) BYTES); [|lia]. replace ((p + j) / 8)%nat with (p / 8 + j / 8)%nat by lia. f_equal. lia.
  - destruct (ba_read_bits_at bs Hb len 0 a p Ha ltac:(lia)) as (a' & -> & Ha' & Hl' & Hb' & Hs'). exists a'. split; [reflexivity|]. split; [assumption|]. split; [congruence|]. split; [congruence|].
    intros j Hj. rewrite Hs'. destruct (Nat.ltb_spec j (0 + len)); [|lia]. cbn [Nat.leb andb]. f_equal. lia.
  - destruct (ba_read_bits_at bs Hb len 0 a p Ha ltac:(lia)) as (a' & -> & Ha' & Hl' & Hb' & Hs'). exists a'. split; [reflexivity|]. split; [assumption|]. split; [congruence|]. split; [congruence|].
    intros j Hj. rewrite Hs'. destruct (Nat.ltb_spec j (0 + len)); [|lia]. cbn [Nat.leb andb]. f_equal. lia.
Qed.

Lemma ba_bits_from_spec a : ba_ok a -> forall n i, (i + n <= ba_len a)%nat -> ba_bits_from a i n = Ok (map (stream_bit (ba_bytes a)) (seq i n)).
Proof.
  intro Ha. induction n as [|n IH]; intros i Hn; cbn [ba_bits_from seq map]; [reflexivity|]. rewrite ba_get_spec by (assumption || lia). cbn [bind]. rewrite IH by lia. reflexivity.
Qed.
Lemma ba_iter_spec a : ba_ok a -> ba_iter a = Ok (map (stream_bit (ba_bytes a)) (seq 0 (ba_len a))).
Proof. intro Ha. apply ba_bits_from_spec; [assumption|lia]. Qed.

(** ** Reading back *)

(** The cursor [c] has the bits [bits] in front of it. *)
Definition sees (c : rc) (bits : list bool) : Prop :=
  (rc_bit c < 8)%nat /\ bytes_ok (rc_bytes c) /\ (rc_bit c + length bits <= 8 * length (rc_bytes c))%nat /\
  forall i, (i < length bits)%nat -> stream_bit (rc_bytes c) (rc_bit c + i) = nth i bits false.

Lemma rc_self c : (rc_bit c < 8)%nat -> c = rc_at (rc_bytes c) (rc_bit c).
Proof. intro H. unfold rc_at. replace (rc_bit c / 8)%nat with O by lia. replace (rc_bit c mod 8)%nat with (rc_bit c) by lia. destruct c; reflexivity. Qed.
Lemma bytes_ok_skipn k bs : bytes_ok bs -> bytes_ok (skipn k bs).
Proof. intro H. unfold bytes_ok in *. rewrite Forall_forall in *. intros x Hx. apply H. rewrite <- (firstn_skipn k bs). apply in_or_app. right. assumption. Qed.
Lemma bytes_ok_firstn k bs : bytes_ok bs -> bytes_ok (firstn k bs).
Proof. intro H. unfold bytes_ok in *. rewrite Forall_forall in *. intros x Hx. apply H. rewrite <- (firstn_skipn k bs). apply in_or_app. left. assumption. Qed.

Lemma sees_at bs p bits : bytes_ok bs -> (p + length bits <= 8 * length bs)%nat -> (forall i, (i < length bits)%nat -> stream_bit bs (p + i) = nth i bits false) ->
  sees (rc_at bs p) bits.
Proof.
  intros Hb Hl H. unfold sees, rc_at. cbn [rc_bytes rc_bit]. split; [lia|]. split; [apply bytes_ok_skipn, Hb|]. rewrite skipn_length. split; [lia|].
  intros i Hi. rewrite stream_skipn, <- H by assumption. f_equal. lia.
Qed.
Lemma sees_app c a b : sees c (a ++ b) -> sees (rc_at (rc_bytes c) (rc_bit c + length a)) b.
Proof.
  intros (H1 & H2 & H3 & H4). rewrite app_length in *. apply sees_at; [assumption|lia|]. intros i Hi. rewrite <- Nat.add_assoc, H4 by lia.
  rewrite nth_app_if. destruct (Nat.ltb_spec (length a + i) (length a)); [lia|]. f_equal. lia.
Qed.
Lemma sees_prefix c a b : sees c (a ++ b) -> sees c a.
Proof.
  intros (H1 & H2 & H3 & H4). rewrite app_length in *. split; [assumption|]. split; [assumption|]. split; [lia|]. intros i Hi. rewrite H4 by lia. apply app_nth1. assumption.
Qed.
Lemma sees_field c n v rest : sees c (bits_of n v ++ rest) -> field (rc_bytes c) (rc_bit c) n = v mod 2 ^ N.of_nat n.
Proof.
  intro H. apply sees_prefix in H. destruct H as (_ & _ & _ & H). rewrite bits_of_length in H. apply bits_inj_nat. intro j. rewrite field_testbit.
  destruct (Nat.ltb_spec j n).
  - cbn [andb]. rewrite H, nth_bits_of by assumption. destruct (Nat.ltb_spec j n); [|lia]. rewrite N.mod_pow2_bits_low by lia. reflexivity.
  - rewrite N.mod_pow2_bits_high by lia. reflexivity.
Qed.
Lemma sees_bytes c bs rest : bytes_ok bs -> sees c (flat_map (bits_of 8) bs ++ rest) -> map (fun i => field (rc_bytes c) (rc_bit c + 8 * i) 8) (seq 0 (length bs)) = bs.
Proof.
  intros Hb H. apply sees_prefix in H. destruct H as (_ & _ & _ & H). rewrite flat_bits_length in H. apply (nth_ext _ _ 0 0); [rewrite map_length, seq_length; reflexivity|].
  intros k Hk. rewrite map_length, seq_length in Hk. rewrite (nth_indep _ 0 (field (rc_bytes c) (rc_bit c + 8 * 0) 8)) by (rewrite map_length, seq_length; lia).
  rewrite (map_nth (fun i => field (rc_bytes c) (rc_bit c + 8 * i) 8)), seq_nth by lia. apply bits_inj_nat. intro j. rewrite field_testbit. destruct (Nat.ltb_spec j 8); cbn [andb].
  - rewrite <- Nat.add_assoc, H by lia. rewrite nth_flat_bits. unfold stream_bit. replace ((8 * (0 + k) + j) / 8)%nat with k by lia. f_equal. lia.
  - symmetry. apply (testbit_high _ 8); [apply nth_ok, Hb|lia].
Qed.

Lemma rbacks_nested : forall body,
  (fix run (ops : list wop) : deserializer (list N) := match ops with [] => fun c => Ok (DOk [], c) | op :: r => dseq (rback op) (run r) end) body = rbacks body.
Proof. intro body. induction body as [|op body IH]; [reflexivity|]. cbn [rbacks]. rewrite IH. reflexivity. Qed.
Lemma wvals_nested : forall body, (fix go (ops : list wop) : list N := match ops with [] => [] | op :: r => wvals op ++ go r end) body = wvalss body.
Proof. intro body. induction body as [|op body IH]; [reflexivity|]. cbn [wvalss]. rewrite IH. reflexivity. Qed.
Lemma wops_ok_back_nested : forall (body : list wop) (p : nat),
  (fix ok (p : nat) (ops : list wop) : Prop := match ops with [] => True | op :: r => wop_ok_back p op /\ ok (p + length (pack p op))%nat r end) p body = wops_ok_back p body.
Proof. induction body as [|op body IH]; intro p; [reflexivity|]. cbn [wops_ok_back]. rewrite IH. reflexivity. Qed.

Definition back_good (c : rc) (p : nat) (bits : list bool) (vals : list N) (d : deserializer (list N)) : Prop :=
  d c = Ok (DOk vals, rc_at (rc_bytes c) (rc_bit c + length bits)).

Lemma at_at bs q a : rc_at (skipn (q / 8) bs) (q mod 8 + a) = rc_at bs (q + a).
Proof. unfold rc_at. f_equal; [|lia]. rewrite skipn_skipn. f_equal. lia. Qed.

Lemma at_at' bs q a : rc_at (rc_bytes (rc_at bs q)) (rc_bit (rc_at bs q) + a) = rc_at bs (q + a).
Proof. apply at_at. Qed.

Lemma rbacks_good ops : (forall op, In op ops -> forall c p rest, sees c (pack p op ++ rest) -> rc_bit c = (p mod 8)%nat -> wop_ok p op -> wop_ok_back p op -> back_good c p (pack p op) (wvals op) (rback op)) ->
  forall c p rest, sees c (packs p ops ++ rest) -> rc_bit c = (p mod 8)%nat -> wops_ok p ops -> wops_ok_back p ops -> back_good c p (packs p ops) (wvalss ops) (rbacks ops).
Proof.
  induction ops as [|op ops IH]; intros Hall c p rest Hs Hp Ho Hob; cbn [packs rbacks wvalss] in *.
  - unfold back_good. cbn [length]. rewrite Nat.add_0_r, <- rc_self by apply Hs. reflexivity.
  - destruct Ho as (Ho1 & Ho2). destruct Hob as (Hob1 & Hob2). rewrite <- app_assoc in Hs. pose proof (Hall op (or_introl eq_refl) c p _ Hs Hp Ho1 Hob1) as H1.
    unfold back_good, dseq in *. rewrite H1. cbn [bind fst snd]. apply sees_app in Hs.
    pose proof (IH (fun o Hin => Hall o (or_intror Hin)) _ (p + length (pack p op))%nat rest Hs ltac:(cbn [rc_at rc_bit]; rewrite Hp; lia) Ho2 Hob2) as H2. rewrite H2. cbn [bind fst snd].
    rewrite at_at'. rewrite app_length, Nat.add_assoc. reflexivity.
Qed.

Lemma ba_vals a bits c rest : sees c (bits ++ rest) -> bits = map (stream_bit (ba_bytes a)) (seq 0 (ba_len a)) ->
  forall j, (j < ba_len a)%nat -> stream_bit (rc_bytes c) (rc_bit c + j) = stream_bit (ba_bytes a) j.
Proof.
  intros Hs -> j Hj. destruct Hs as (_ & _ & _ & H). rewrite app_length, map_length, seq_length in H. rewrite H by lia. rewrite nth_app_if, map_length, seq_length.
  destruct (Nat.ltb_spec j (ba_len a)); [|lia]. rewrite nth_map_seq. destruct (Nat.ltb_spec j (ba_len a)); [|lia]. reflexivity.
Qed.

Lemma rback_good : forall op c p rest, sees c (pack p op ++ rest) -> rc_bit c = (p mod 8)%nat -> wop_ok p op -> wop_ok_back p op -> back_good c p (pack p op) (wvals op) (rback op).
Proof.
  fix IH 1. intros op c p rest Hs Hp Ho Hob. pose proof Hs as (Hbit & Hb & Hlen & Hbits).
  destruct op as [n v|b|n| |k v|bs|bs|a|delimited size body]; cbn [rback pack wvals wop_ok wop_ok_back] in *; unfold back_good.
  - rewrite (rc_self c Hbit) at 1. rewrite read_u_at by (assumption || lia). unfold dval. cbn [bind fst snd]. rewrite (sees_field c n v rest Hs), bits_of_length. reflexivity.
  - rewrite (rc_self c Hbit) at 1. rewrite read_bool_at by assumption. cbn [bind fst snd length]. specialize (Hbits O ltac:(cbn [app length]; lia)). rewrite Nat.add_0_r in Hbits. rewrite Hbits. reflexivity.
  - rewrite (rc_self c Hbit) at 1. rewrite advance_at, repeat_length. reflexivity.
  - rewrite (rc_self c Hbit) at 1. rewrite align_at, !pad8_length. rewrite Hp. do 3 f_equal. lia.
  - destruct (read_aligned_at (rc_bytes c) Hb (rc_bit c) ltac:(lia)) as (H16 & H32 & H64). pose proof (sees_field c (8 * k) v rest Hs) as E. rewrite bits_of_length.
    destruct Hob as [<-|[<-|[<-|[<-|[]]]]]; unfold dval; rewrite (rc_self c Hbit) at 1; [rewrite read_aligned_u8_at by (assumption || lia)|rewrite H16|rewrite H32|rewrite H64]; cbn [bind fst snd]; rewrite <- E; reflexivity.
  - rewrite (rc_self c Hbit) at 1. rewrite read_bytes_at by assumption. cbn [bind fst snd]. rewrite (sees_bytes c bs rest Ho Hs), flat_bits_length. reflexivity.
  - rewrite (rc_self c Hbit) at 1. rewrite zero_copy_at by (assumption || lia). cbn [bind fst snd]. rewrite (sees_bytes c bs rest (proj1 Ho) Hs), flat_bits_length. reflexivity.
  - rewrite (rc_self c Hbit) at 1. unfold read_bits. destruct (ba_deserialize_at (rc_bytes c) (rc_bit c) (length (ba_bytes a)) (ba_len a) Hb (proj2 Ho)) as (a' & -> & Ha' & Hl' & Hby' & Hj'). cbn [bind fst snd].
    rewrite ba_iter_spec by assumption. cbn [bind]. rewrite map_length, seq_length. f_equal. f_equal.
    + f_equal. rewrite map_map, Hl'. apply map_ext_in. intros j Hj. apply in_seq in Hj. rewrite Hj' by lia. f_equal. apply (ba_vals a _ c rest Hs eq_refl). lia.
    + f_equal. f_equal. destruct (Nat.eqb_spec (ba_len a mod 8) 0) as [E1|]; cbn [andb]; [|reflexivity]. destruct (Nat.eqb_spec (rc_bit c mod 8) 0) as [E2|]; [|reflexivity]. rewrite Hob by lia. reflexivity.
  - rewrite rbacks_nested, wvals_nested. rewrite packs_nested in *. rewrite wops_ok_nested in Ho. rewrite wops_ok_back_nested in Hob. destruct Ho as (Ho & Hsize).
    set (p1 := (p + length (pad8 p))%nat) in *. assert (Hp1 : (p1 mod 8 = 0)%nat) by (unfold p1; rewrite pad8_length; lia).
    set (start := if delimited then (p1 + 32)%nat else p1) in *. set (inner := packs start body) in *. cbv zeta in *. set (content := inner ++ pad8 (p1 + length inner)) in *.
    assert (Hlc : length content = (length inner + (8 - (p1 + length inner) mod 8) mod 8)%nat) by (unfold content; rewrite app_length, pad8_length; reflexivity).
    assert (Hpad : length (pad8 (rc_bit c)) = length (pad8 p)) by (rewrite !pad8_length, Hp; f_equal; f_equal; lia).
    assert (Hq : ((rc_bit c + length (pad8 p)) mod 8 = 0)%nat) by (rewrite pad8_length; lia).
    assert (Hbody : forall c2 rest2, sees c2 (inner ++ rest2) -> rc_bit c2 = O -> back_good c2 start inner (wvalss body) (rbacks body)).
    { intros c2 rest2 Hs2 Hb2. apply (rbacks_good body) with (rest := rest2); [|assumption|unfold start; destruct delimited; lia|assumption|assumption].
      clear - IH. induction body as [|o body IHb]; intros op Hin; [destruct Hin|]. destruct Hin as [<-|Hin]; [apply IH|apply IHb, Hin]. }
    rewrite (rc_self c Hbit) at 1. rewrite <- !app_assoc in Hs. pose proof (sees_app _ _ _ Hs) as Hs1. destruct delimited.
    + rewrite read_delimited_at by assumption. rewrite Hpad. pose proof (sees_field _ _ _ _ Hs1) as Hf. cbn [rc_at rc_bytes rc_bit] in Hf.
      assert (Hlen32 : field (rc_bytes c) (rc_bit c + length (pad8 p)) 32 = N.of_nat (length content / 8)).
      { transitivity (field (skipn ((rc_bit c + length (pad8 p)) / 8) (rc_bytes c)) ((rc_bit c + length (pad8 p)) mod 8) 32).
        - unfold field. f_equal. apply (nth_ext _ _ false false); [rewrite !map_length, !seq_length; reflexivity|]. intros j Hj. rewrite !nth_map_seq, stream_skipn. f_equal. f_equal. lia.
        - rewrite Hf. destruct (Hsize eq_refl) as (Hs1' & Hs2'). change (2 ^ N.of_nat 32) with 4294967296. change (2 ^ 32) with 4294967296 in Hs2'. apply N.mod_small. lia. }
      rewrite Hlen32, Nat2N.id. pose proof (sees_app _ _ _ Hs1) as Hs2. rewrite bits_of_length, at_at' in Hs2.
      set (q := (rc_bit c + length (pad8 p) + 32)%nat) in *. pose proof (sees_prefix _ _ _ Hs2) as Hs3. destruct Hs3 as (K1 & K2 & K3 & K4).
      unfold rc_at in K2, K3, K4. cbn [rc_bytes rc_bit] in K2, K3, K4. rewrite skipn_length in K3.
      destruct (N.ltb_spec (N.of_nat (length (rc_bytes c) - q / 8)) (N.of_nat (length content / 8))); [lia|].
      assert (Hin : sees (rc_new (firstn (length content / 8) (skipn (q / 8) (rc_bytes c)))) (inner ++ pad8 (p1 + length inner))).
      { fold content. unfold sees, rc_new. cbn [rc_bytes rc_bit]. split; [lia|]. split; [apply bytes_ok_firstn, K2|]. rewrite firstn_length, skipn_length. split; [lia|].
        intros i Hi. rewrite stream_firstn by lia. rewrite <- K4 by assumption. f_equal. lia. }
      pose proof (Hbody _ _ Hin eq_refl) as Hbg. unfold back_good in Hbg. rewrite Hbg. cbn [bind fst snd]. f_equal. f_equal. f_equal. rewrite !app_length, bits_of_length. unfold q. lia.
    + rewrite read_undelimited_at, Hpad. cbn [app] in Hs1. pose proof Hs1 as Hs2. unfold content in Hs2. rewrite <- app_assoc in Hs2.
      pose proof (Hbody _ _ Hs2 Hq) as Hbg. unfold back_good in Hbg. rewrite Hbg. cbn [bind fst snd]. rewrite at_at', align_at.
      f_equal. f_equal. f_equal. rewrite !app_length. cbn [length]. fold content. rewrite Hlc, (pad8_length (_ + length inner)). lia.
Qed.

Theorem rbacks_all ops c p rest : sees c (packs p ops ++ rest) -> rc_bit c = (p mod 8)%nat -> wops_ok p ops -> wops_ok_back p ops -> back_good c p (packs p ops) (wvalss ops) (rbacks ops).
Proof. apply rbacks_good. intros op _. apply rback_good. Qed.
