(** Proofs about the write cursor. *)
From Verif Require Import Base BitLemmas EncModel EncSpec.
Ltac Zify.zify_post_hook ::= Z.div_mod_to_equations.

Lemma nth_app_if {A} (a b : list A) i d : nth i (a ++ b) d = if (i <? length a)%nat then nth i a d else nth (i - length a) b d.
Proof. destruct (Nat.ltb_spec i (length a)); [apply app_nth1|apply app_nth2]; lia. Qed.

Lemma bits_of_length n v : length (bits_of n v) = n.
Proof. unfold bits_of. rewrite map_length, seq_length. reflexivity. Qed.
Lemma nth_bits_of n v i : nth i (bits_of n v) false = (i <? n)%nat && N.testbit v (N.of_nat i).
Proof.
  unfold bits_of. destruct (Nat.ltb_spec i n).
  - rewrite (nth_indep _ false (N.testbit v (N.of_nat 0))) by (rewrite map_length, seq_length; lia).
    rewrite (map_nth (fun j => N.testbit v (N.of_nat j)) (seq 0 n) 0%nat i), seq_nth by lia. reflexivity.
  - apply nth_overflow. rewrite map_length, seq_length. lia.
Qed.
Lemma nth_repeat_false n i : nth i (repeat false n) false = false.
Proof. revert i. induction n as [|n IH]; intros [|i]; try reflexivity. cbn [repeat nth]. apply IH. Qed.

Lemma list_set_spec l : forall k f,
  match list_set l k f with
  | Ok l' => (k < length l)%nat /\ length l' = length l /\ forall j, nth j l' 0 = if (j =? k)%nat then f (nth k l 0) else nth j l 0
  | Panic => (length l <= k)%nat
  end.
Proof.
  induction l as [|b l IH]; intros [|k] f; cbn [list_set]; try (cbn [length]; lia).
  - cbn [length]. split; [lia|]. split; [reflexivity|]. intros [|j]; reflexivity.
  - specialize (IH k f). destruct (list_set l k f) as [l'|]; [|cbn [length]; lia]. destruct IH as (H1 & H2 & H3). cbn [length]. split; [lia|]. split; [lia|].
    intros [|j]; [reflexivity|]. cbn [nth]. rewrite H3. reflexivity.
Qed.
Lemma nth_ok l k : bytes_ok l -> nth k l 0 < 256.
Proof.
  intro H. destruct (Nat.ltb_spec k (length l)) as [Hk|Hk].
  - unfold bytes_ok in H. rewrite Forall_forall in H. apply H. apply nth_In. assumption.
  - rewrite nth_overflow by lia. lia.
Qed.
Lemma bytes_ok_nth l : (forall k, nth k l 0 < 256) -> bytes_ok l.
Proof.
  intro H. apply Forall_forall. intros x Hx. apply (In_nth _ _ 0) in Hx as (k & _ & <-). apply H.
Qed.
Lemma list_set_ok l k f : bytes_ok l -> (forall b, b < 256 -> f b < 256) -> match list_set l k f with Ok l' => bytes_ok l' | Panic => True end.
Proof.
  intros H Hf. pose proof (list_set_spec l k f) as Hs. destruct (list_set l k f) as [l'|]; [|exact I]. destruct Hs as (_ & _ & Hn).
  apply bytes_ok_nth. intro j. rewrite Hn. destruct (j =? k)%nat; [apply Hf|]; apply nth_ok, H.
Qed.

(** The cursor [c] over [L] bytes has written the bits [done]. *)
Definition winv (L : nat) (c : wc) (done : list bool) : Prop :=
  bytes_ok (wc_bytes c) /\ length (wc_bytes c) = L /\ (wc_bit c < 8)%nat /\ (wc_written c <= L)%nat /\
  (8 * wc_written c + wc_bit c = length done)%nat /\ forall i, stream_bit (wc_bytes c) i = nth i done false.

Lemma winv_new slice : winv (length slice) (wc_new slice) [].
Proof.
  unfold winv, wc_new. cbn [wc_bytes wc_written wc_bit length].
  split; [apply Forall_forall; intros x Hx; apply in_map_iff in Hx as (? & <- & _); unfold is_byte; lia|].
  split; [apply map_length|]. split; [lia|]. split; [lia|]. split; [lia|]. intro i. unfold stream_bit.
  assert (E : forall k, nth k (map (fun _ : N => 0) slice) 0 = 0). { intro k. change 0 with ((fun _ : N => 0) 0) at 2. rewrite map_nth. reflexivity. }
  rewrite E. rewrite N.bits_0. destruct i; reflexivity.
Qed.

Lemma winv_done L c done i : winv L c done -> (length done <= i)%nat -> stream_bit (wc_bytes c) i = false.
Proof. intros (_ & _ & _ & _ & _ & H) Hi. rewrite H. apply nth_overflow. assumption. Qed.

Lemma wc_check_spec L c done bits : winv L c done ->
  wc_check c bits = if ((length done + bits) / 8 <=? L)%nat then Ok tt else Panic.
Proof.
  intros (_ & HL & Hb & Hw & Hp & _). unfold wc_check. rewrite HL. destruct (Nat.ltb_spec L (wc_written c)); [lia|].
  destruct (Nat.leb_spec ((wc_bit c + bits) / 8) (L - wc_written c)), (Nat.leb_spec ((length done + bits) / 8) L); try reflexivity; lia.
Qed.

Lemma wc_advance_spec L c c' done more : winv L c done -> bytes_ok (wc_bytes c') -> length (wc_bytes c') = L -> wc_bit c' = wc_bit c -> wc_written c' = wc_written c ->
  (forall i, stream_bit (wc_bytes c') i = nth i (done ++ more) false) ->
  match wc_advance c' (length more) with
  | Ok c2 => winv L c2 (done ++ more) /\ (length done + length more < 8 * L + 8)%nat
  | Panic => (8 * L + 8 <= length done + length more)%nat
  end.
Proof.
  intros Hi Hok HL' Hb' Hw' Hbits. destruct Hi as (Hok0 & HL & Hb & Hw & Hp & Hs). unfold wc_advance, bind, wc_check. rewrite HL', Hw', Hb'.
  destruct (Nat.ltb_spec L (wc_written c)); [lia|]. destruct (Nat.leb_spec ((wc_bit c + length more) / 8) (L - wc_written c)) as [Hle|Hgt]; [|lia].
  split; [|lia]. unfold winv. cbn [wc_bytes wc_bit wc_written]. split; [assumption|]. split; [assumption|]. split; [lia|]. split; [lia|].
  split; [rewrite app_length; lia|]. assumption.
Qed.

Lemma mask_bits bits j : (bits <= 8)%nat -> N.testbit (w8 (N.shiftl 1 (N.of_nat bits) - 1)) j = (j <? N.of_nat bits).
Proof.
  intro H. rewrite N.shiftl_1_l, <- N.pred_sub, <- N.ones_equiv. unfold w8. rewrite w_ones, N.land_spec.
  destruct (N.ltb_spec j (N.of_nat bits)).
  - rewrite !N.ones_spec_low by lia. reflexivity.
  - rewrite N.ones_spec_high by lia. reflexivity.
Qed.
Lemma w8_bits v j : N.testbit (w8 v) j = (j <? 8) && N.testbit v j.
Proof.
  unfold w8. destruct (N.ltb_spec j 8); [rewrite N.mod_pow2_bits_low by lia; reflexivity|rewrite N.mod_pow2_bits_high by lia; reflexivity].
Qed.
Lemma shiftl_bits a n j : N.testbit (N.shiftl a n) j = (n <=? j) && N.testbit a (j - n).
Proof.
  destruct (N.leb_spec n j); [rewrite N.shiftl_spec_high' by lia; reflexivity|rewrite N.shiftl_spec_low by lia; reflexivity].
Qed.

Lemma write_up_to_u8_spec L c done v bits : winv L c done -> (bits <= 8)%nat ->
  match write_up_to_u8 c v bits with
  | Ok c' => winv L c' (done ++ bits_of bits v) /\ ((0 < bits)%nat -> (length done + bits <= 8 * L)%nat)
  | Panic => (8 * L < length done + bits)%nat
  end.
Proof.
  intros Hi Hb8. unfold write_up_to_u8. destruct (Nat.eqb_spec bits 0) as [->|Hb0].
  { change (bits_of 0 v) with (@nil bool). rewrite app_nil_r. split; [assumption|lia]. }
  unfold bind at 1. rewrite (wc_check_spec L c done bits Hi). destruct (Nat.leb_spec ((length done + bits) / 8) L) as [Hck|]; [|lia].
  set (mask := w8 (N.shiftl 1 (N.of_nat bits) - 1)). cbv zeta.
  assert (Hval : forall j, N.testbit (N.land v mask) j = (j <? N.of_nat bits) && N.testbit v j).
  { intro j. unfold mask. rewrite N.land_spec, mask_bits by assumption. apply andb_comm. }
  pose proof Hi as (Hok & HL & Hbit & Hw & Hp & Hs).
  assert (Hor : forall x, x < 256 -> forall b, b < 256 -> N.lor b x < 256) by (intros x Hx b Hbb; apply (lor_bound b x 8); assumption).
  assert (Hx1 : w8 (N.shiftl (N.land v mask) (N.of_nat (wc_bit c))) < 256) by (unfold w8; apply N.mod_lt; discriminate).
  destruct (Nat.leb_spec (wc_bit c) (8 - bits)) as [Hle|Hgt].
  - unfold wc_set. pose proof (list_set_spec (wc_bytes c) (wc_written c + 0) (fun b => N.lor b (w8 (N.shiftl (N.land v mask) (N.of_nat (wc_bit c)))))) as H.
    pose proof (list_set_ok (wc_bytes c) (wc_written c + 0) (fun b => N.lor b (w8 (N.shiftl (N.land v mask) (N.of_nat (wc_bit c))))) Hok (Hor _ Hx1)) as Hok'.
    destruct (list_set _ _ _) as [l'|]; [|cbn [bind]; lia]. destruct H as (H1 & H2 & H3). cbn [bind].
    pose proof (wc_advance_spec L c (WC l' (wc_written c) (wc_bit c)) done (bits_of bits v) Hi) as Ha. cbn [wc_bytes wc_bit wc_written] in Ha. rewrite bits_of_length in Ha.
    assert (Hbits : forall i, stream_bit l' i = nth i (done ++ bits_of bits v) false).
    { intro i. unfold stream_bit. rewrite H3. rewrite nth_app_if, nth_bits_of. specialize (Hs i). unfold stream_bit in Hs.
      destruct (Nat.eqb_spec (i / 8) (wc_written c + 0)) as [E|E].
      - rewrite N.lor_spec, w8_bits, shiftl_bits, Hval. rewrite Nat.add_0_r in *. rewrite <- E, Hs.
        destruct (Nat.ltb_spec i (length done)).
        + destruct (N.leb_spec (N.of_nat (wc_bit c)) (N.of_nat (i mod 8))); [lia|]. cbn [andb]. rewrite andb_false_r, orb_false_r. reflexivity.
        + rewrite nth_overflow by lia. cbn [orb]. destruct (N.ltb_spec (N.of_nat (i mod 8)) 8); [|lia]. destruct (N.leb_spec (N.of_nat (wc_bit c)) (N.of_nat (i mod 8))); [|lia]. cbn [andb].
          replace (N.of_nat (i mod 8) - N.of_nat (wc_bit c)) with (N.of_nat (i - length done)) by lia.
          f_equal. destruct (N.ltb_spec (N.of_nat (i - length done)) (N.of_nat bits)), (Nat.ltb_spec (i - length done) bits); try reflexivity; lia.
      - rewrite Hs. destruct (Nat.ltb_spec i (length done)); [reflexivity|]. rewrite nth_overflow by lia. destruct (Nat.ltb_spec (i - length done) bits); [lia|]. reflexivity. }
    specialize (Ha Hok' ltac:(congruence) eq_refl eq_refl Hbits). destruct (wc_advance _ bits); [|lia]. destruct Ha as (Ha & _). split; [assumption|lia].
  - unfold wc_set at 1. pose proof (list_set_spec (wc_bytes c) (wc_written c + 0) (fun b => N.lor b (w8 (N.shiftl (N.land v mask) (N.of_nat (wc_bit c)))))) as H.
    pose proof (list_set_ok (wc_bytes c) (wc_written c + 0) (fun b => N.lor b (w8 (N.shiftl (N.land v mask) (N.of_nat (wc_bit c))))) Hok (Hor _ Hx1)) as Hok'.
    destruct (list_set (wc_bytes c) _ _) as [l'|]; [|cbn [bind]; lia]. destruct H as (H1 & H2 & H3). cbn [bind].
    assert (Hx2 : N.shiftr (N.land v mask) (8 - N.of_nat (wc_bit c)) < 256).
    { apply (bound_of_bits _ 8). intros j Hj. rewrite N.shiftr_spec', Hval. destruct (N.ltb_spec (j + (8 - N.of_nat (wc_bit c))) (N.of_nat bits)); [lia|reflexivity]. }
    unfold wc_set. cbn [wc_bytes wc_written wc_bit].
    pose proof (list_set_spec l' (wc_written c + 1) (fun b => N.lor b (N.shiftr (N.land v mask) (8 - N.of_nat (wc_bit c))))) as G.
    pose proof (list_set_ok l' (wc_written c + 1) (fun b => N.lor b (N.shiftr (N.land v mask) (8 - N.of_nat (wc_bit c)))) Hok' (Hor _ Hx2)) as Gok.
    destruct (list_set l' _ _) as [l2|]; [|cbn [bind]; lia]. destruct G as (G1 & G2 & G3). cbn [bind].
    pose proof (wc_advance_spec L c (WC l2 (wc_written c) (wc_bit c)) done (bits_of bits v) Hi) as Ha. cbn [wc_bytes wc_bit wc_written] in Ha. rewrite bits_of_length in Ha.
    assert (Hbits : forall i, stream_bit l2 i = nth i (done ++ bits_of bits v) false).
    { intro i. unfold stream_bit. rewrite G3, !H3. rewrite nth_app_if, nth_bits_of. specialize (Hs i). unfold stream_bit in Hs. rewrite Nat.add_0_r in *.
      destruct (Nat.eqb_spec (i / 8) (wc_written c + 1)) as [E1|E1].
      - destruct (Nat.eqb_spec (wc_written c + 1) (wc_written c)); [lia|].
        rewrite N.lor_spec, N.shiftr_spec', Hval. rewrite <- E1, Hs. rewrite nth_overflow by lia. cbn [orb]. destruct (Nat.ltb_spec i (length done)); [lia|].
        replace (N.of_nat (i mod 8) + (8 - N.of_nat (wc_bit c))) with (N.of_nat (i - length done)) by lia.
        f_equal. destruct (N.ltb_spec (N.of_nat (i - length done)) (N.of_nat bits)), (Nat.ltb_spec (i - length done) bits); try reflexivity; lia.
      - destruct (Nat.eqb_spec (i / 8) (wc_written c)) as [E|E].
        + rewrite N.lor_spec, w8_bits, shiftl_bits, Hval. rewrite <- E, Hs.
          destruct (Nat.ltb_spec i (length done)).
          * destruct (N.leb_spec (N.of_nat (wc_bit c)) (N.of_nat (i mod 8))); [lia|]. cbn [andb]. rewrite andb_false_r, orb_false_r. reflexivity.
          * rewrite nth_overflow by lia. cbn [orb]. destruct (N.ltb_spec (N.of_nat (i mod 8)) 8); [|lia]. destruct (N.leb_spec (N.of_nat (wc_bit c)) (N.of_nat (i mod 8))); [|lia]. cbn [andb].
            replace (N.of_nat (i mod 8) - N.of_nat (wc_bit c)) with (N.of_nat (i - length done)) by lia.
            f_equal. destruct (N.ltb_spec (N.of_nat (i - length done)) (N.of_nat bits)), (Nat.ltb_spec (i - length done) bits); try reflexivity; lia.
        + rewrite Hs. destruct (Nat.ltb_spec i (length done)); [reflexivity|]. rewrite nth_overflow by lia. destruct (Nat.ltb_spec (i - length done) bits); [lia|]. reflexivity. }
    specialize (Ha Gok ltac:(congruence) eq_refl eq_refl Hbits). destruct (wc_advance _ bits); [|lia]. destruct Ha as (Ha & _). split; [assumption|lia].
Qed.

Lemma bits_of_app a b v : bits_of (a + b) v = bits_of a v ++ bits_of b (N.shiftr v (N.of_nat a)).
Proof.
  apply (nth_ext _ _ false false); [rewrite app_length, !bits_of_length; reflexivity|]. intros i Hi. rewrite bits_of_length in Hi.
  rewrite nth_app_if, !nth_bits_of, bits_of_length. destruct (Nat.ltb_spec i (a + b)); [|lia]. destruct (Nat.ltb_spec i a); [reflexivity|].
  destruct (Nat.ltb_spec (i - a) b); [|lia]. cbn [andb]. rewrite N.shiftr_spec'. f_equal. lia.
Qed.
Lemma bits_of_w8 n v : (n <= 8)%nat -> bits_of n (w8 v) = bits_of n v.
Proof.
  intro H. apply (nth_ext _ _ false false); [rewrite !bits_of_length; reflexivity|]. intros i Hi. rewrite bits_of_length in Hi.
  rewrite !nth_bits_of, w8_bits. destruct (N.ltb_spec (N.of_nat i) 8); [reflexivity|lia].
Qed.

Lemma write_whole_bytes_spec L k : forall c done v, winv L c done ->
  match write_whole_bytes c v k with
  | Ok (c', v') => winv L c' (done ++ bits_of (8 * k) v) /\ v' = N.shiftr v (N.of_nat (8 * k)) /\ (length done + 8 * k <= Nat.max (8 * L) (length done))%nat
  | Panic => (8 * L < length done + 8 * k)%nat
  end.
Proof.
  induction k as [|k IH]; intros c done v Hi; cbn [write_whole_bytes].
  - change (bits_of (8 * 0) v) with (@nil bool). rewrite app_nil_r, N.shiftr_0_r. split; [assumption|]. split; [reflexivity|lia].
  - pose proof (write_up_to_u8_spec L c done (w8 v) 8 Hi ltac:(lia)) as H. destruct (write_up_to_u8 c (w8 v) 8) as [c1|]; cbn [bind]; [|lia].
    destruct H as (H & Hlen). rewrite bits_of_w8 in H by lia. specialize (IH c1 (done ++ bits_of 8 v) (N.shiftr v 8) H). rewrite app_length, bits_of_length in IH.
    destruct (write_whole_bytes c1 (N.shiftr v 8) k) as [[c2 v2]|]; [|lia]. destruct IH as (I1 & I2 & I3).
    replace (8 * S k)%nat with (8 + 8 * k)%nat by lia. rewrite bits_of_app, app_assoc. split; [exact I1|]. split; [|lia].
    rewrite I2, N.shiftr_shiftr. f_equal. lia.
Qed.

Lemma write_u_spec L c done n v : winv L c done -> (1 <= n <= 64)%nat ->
  match write_u c n v with
  | Ok c' => winv L c' (done ++ bits_of n v) /\ (length done + n <= 8 * L)%nat
  | Panic => (8 * L < length done + n)%nat
  end.
Proof.
  intros Hi Hn. unfold write_u. destruct (Nat.leb_spec n 8).
  - pose proof (write_up_to_u8_spec L c done v n Hi ltac:(lia)) as Hw. destruct (write_up_to_u8 c v n); [|exact Hw]. destruct Hw as (H1 & H2). split; [assumption|apply H2; lia].
  - unfold write_up_to. pose proof (write_whole_bytes_spec L (n / 8) c done v Hi) as H1. destruct (write_whole_bytes c v (n / 8)) as [[c1 v1]|]; cbn [bind]; [|lia].
    destruct H1 as (I1 & I2 & I3). cbn [fst snd]. pose proof (write_up_to_u8_spec L c1 _ (w8 v1) (n mod 8) I1 ltac:(lia)) as H2. rewrite app_length, bits_of_length in H2.
    destruct (write_up_to_u8 c1 (w8 v1) (n mod 8)) as [c2|]; [|lia]. destruct H2 as (J1 & J2). rewrite bits_of_w8 in J1 by lia. rewrite I2, <- app_assoc, <- bits_of_app in J1.
    replace (8 * (n / 8) + n mod 8)%nat with n in J1 by lia. split; [assumption|]. destruct (Nat.eq_dec (n mod 8) 0); [lia|]. specialize (J2 ltac:(lia)). lia.
Qed.

Lemma flat_bits_length bs : length (flat_map (bits_of 8) bs) = (8 * length bs)%nat.
Proof. induction bs as [|b bs IH]; [reflexivity|]. cbn [flat_map length]. rewrite app_length, bits_of_length, IH. lia. Qed.
Lemma nth_flat_bits bs : forall i, nth i (flat_map (bits_of 8) bs) false = stream_bit bs i.
Proof.
  unfold stream_bit. induction bs as [|b bs IH]; intro i; cbn [flat_map].
  - destruct (i / 8)%nat; cbn [nth]; rewrite N.bits_0; destruct i; reflexivity.
  - rewrite nth_app_if, bits_of_length, nth_bits_of. destruct (Nat.ltb_spec i 8).
    + replace (i / 8)%nat with O by lia. replace (i mod 8)%nat with i by lia. reflexivity.
    + rewrite IH. replace (i / 8)%nat with (S ((i - 8) / 8)) by lia. replace (i mod 8)%nat with ((i - 8) mod 8)%nat by lia. reflexivity.
Qed.
Lemma flat_le_bytes k : forall v, flat_map (bits_of 8) (le_bytes k v) = bits_of (8 * k) v.
Proof.
  induction k as [|k IH]; intro v; [reflexivity|]. cbn [le_bytes flat_map]. rewrite IH. replace (8 * S k)%nat with (8 + 8 * k)%nat by lia. rewrite bits_of_app. f_equal.
  - change (v mod 256) with (w8 v). apply bits_of_w8. lia.
  - rewrite N.shiftr_div_pow2. reflexivity.
Qed.

Lemma list_write_nth l k bs j : (k + length bs <= length l)%nat ->
  nth j (list_write l k bs) 0 = if (j <? k)%nat then nth j l 0 else if (j <? k + length bs)%nat then nth (j - k) bs 0 else nth j l 0.
Proof.
  intro H. unfold list_write. rewrite nth_app_if, firstn_length. replace (Nat.min k (length l)) with k by lia. destruct (Nat.ltb_spec j k).
  - rewrite <- (firstn_skipn k l) at 2. rewrite app_nth1; [reflexivity|]. rewrite firstn_length. lia.
  - rewrite nth_app_if. destruct (Nat.ltb_spec (j - k) (length bs)), (Nat.ltb_spec j (k + length bs)); try lia; try reflexivity.
    rewrite <- (firstn_skipn (k + length bs) l) at 2. rewrite app_nth2; rewrite firstn_length; [|lia]. f_equal. lia.
Qed.
Lemma list_write_length l k bs : (k + length bs <= length l)%nat -> length (list_write l k bs) = length l.
Proof. intro H. unfold list_write. rewrite !app_length, firstn_length, skipn_length. lia. Qed.

Lemma write_block L c done bs : winv L c done -> (length done mod 8 = 0)%nat -> bytes_ok bs ->
  match (if (length (wc_bytes c) <? wc_written c)%nat then Panic
         else if (length bs <=? length (wc_bytes c) - wc_written c)%nat then
           wc_advance (WC (list_write (wc_bytes c) (wc_written c) bs) (wc_written c) (wc_bit c)) (8 * length bs)
         else Panic) with
  | Ok c' => winv L c' (done ++ flat_map (bits_of 8) bs) /\ (length done + 8 * length bs <= 8 * L)%nat
  | Panic => (8 * L < length done + 8 * length bs)%nat
  end.
Proof.
  intros Hi Hal Hbs. pose proof Hi as (Hok & HL & Hbit & Hw & Hp & Hs). rewrite HL. destruct (Nat.ltb_spec L (wc_written c)); [lia|].
  destruct (Nat.leb_spec (length bs) (L - wc_written c)) as [Hle|]; [|lia].
  pose proof (wc_advance_spec L c (WC (list_write (wc_bytes c) (wc_written c) bs) (wc_written c) (wc_bit c)) done (flat_map (bits_of 8) bs) Hi) as Ha.
  cbn [wc_bytes wc_bit wc_written] in Ha. rewrite flat_bits_length in Ha.
  assert (Hk : (wc_written c + length bs <= length (wc_bytes c))%nat) by lia.
  assert (Hok' : bytes_ok (list_write (wc_bytes c) (wc_written c) bs)).
  { apply bytes_ok_nth. intro j. rewrite list_write_nth by assumption. destruct (j <? wc_written c)%nat; [apply nth_ok, Hok|]. destruct (j <? wc_written c + length bs)%nat; [apply nth_ok, Hbs|apply nth_ok, Hok]. }
  assert (Hbits : forall i, stream_bit (list_write (wc_bytes c) (wc_written c) bs) i = nth i (done ++ flat_map (bits_of 8) bs) false).
  { intro i. rewrite nth_app_if, nth_flat_bits. specialize (Hs i). unfold stream_bit in *. rewrite list_write_nth by assumption.
    destruct (Nat.ltb_spec (i / 8) (wc_written c)), (Nat.ltb_spec i (length done)); try lia; [assumption|]. destruct (Nat.ltb_spec (i / 8) (wc_written c + length bs)).
    - replace (i / 8 - wc_written c)%nat with ((i - length done) / 8)%nat by lia. replace (i mod 8)%nat with ((i - length done) mod 8)%nat by lia. reflexivity.
    - rewrite Hs, nth_overflow by lia. rewrite (nth_overflow bs) by lia. rewrite N.bits_0. reflexivity. }
  specialize (Ha Hok' ltac:(rewrite list_write_length; assumption) eq_refl eq_refl Hbits). destruct (wc_advance _ _); [|lia]. destruct Ha as (Ha & _). split; [assumption|lia].
Qed.

Lemma aligned_iff L c done : winv L c done -> wc_aligned c = (length done mod 8 =? 0)%nat.
Proof.
  intros (_ & _ & Hb & _ & Hp & _). unfold wc_aligned. destruct (Nat.eqb_spec (wc_bit c) 0), (Nat.eqb_spec (length done mod 8) 0); try reflexivity; lia.
Qed.

Lemma wc_skip_spec L c done n : winv L c done ->
  match wc_skip c n with
  | Ok c' => winv L c' (done ++ repeat false n) /\ (length done + n < 8 * L + 8)%nat
  | Panic => (8 * L + 8 <= length done + n)%nat
  end.
Proof.
  intro Hi. unfold wc_skip. rewrite (wc_check_spec L c done n Hi). destruct (Nat.leb_spec ((length done + n) / 8) L); cbn [bind]; [|lia].
  pose proof Hi as (Hok & HL & Hbit & Hw & Hp & Hs).
  pose proof (wc_advance_spec L c c done (repeat false n) Hi Hok HL eq_refl eq_refl) as Ha. rewrite repeat_length in Ha. apply Ha.
  intro i. rewrite Hs, nth_app_if, nth_repeat_false. destruct (Nat.ltb_spec i (length done)); [reflexivity|]. apply nth_overflow. lia.
Qed.

Lemma pad8_length p : length (pad8 p) = ((8 - p mod 8) mod 8)%nat.
Proof. apply repeat_length. Qed.

Lemma wc_align_spec L c done : winv L c done -> (length done <= 8 * L)%nat ->
  exists c', wc_align c = Ok c' /\ winv L c' (done ++ pad8 (length done)) /\ (length done + length (pad8 (length done)) <= 8 * L)%nat.
Proof.
  intros Hi Hlen. rewrite pad8_length. unfold wc_align. pose proof Hi as (Hok & HL & Hbit & Hw & Hp & Hs). unfold pad8. destruct (Nat.eqb_spec (wc_bit c) 0).
  - replace ((8 - length done mod 8) mod 8)%nat with O by lia. cbn [repeat]. rewrite app_nil_r. exists c. split; [reflexivity|]. split; [assumption|lia].
  - replace ((8 - length done mod 8) mod 8)%nat with (8 - wc_bit c)%nat by lia. pose proof (wc_skip_spec L c done (8 - wc_bit c) Hi) as H.
    destruct (wc_skip c (8 - wc_bit c)) as [c'|]; [|lia]. exists c'. split; [reflexivity|]. split; [apply H|lia].
Qed.
(** aligning never goes past a byte that is not there already *)
Lemma wc_align_spec2 L c done : winv L c done ->
  match wc_align c with
  | Ok c' => winv L c' (done ++ pad8 (length done)) /\ ((length done < 8 * L + 8)%nat -> (length done + length (pad8 (length done)) < 8 * L + 8)%nat)
  | Panic => (8 * L < length done + length (pad8 (length done)))%nat
  end.
Proof.
  intro Hi. rewrite pad8_length. unfold wc_align. pose proof Hi as (Hok & HL & Hbit & Hw & Hp & Hs). unfold pad8. destruct (Nat.eqb_spec (wc_bit c) 0).
  - replace ((8 - length done mod 8) mod 8)%nat with O by lia. cbn [repeat]. rewrite app_nil_r. split; [assumption|lia].
  - replace ((8 - length done mod 8) mod 8)%nat with (8 - wc_bit c)%nat by lia. pose proof (wc_skip_spec L c done (8 - wc_bit c) Hi) as H.
    destruct (wc_skip c (8 - wc_bit c)) as [c'|]; [|lia]. split; [apply H|intro; apply H].
Qed.

Lemma write_bytes_spec L bs : forall c done, winv L c done -> bytes_ok bs ->
  match write_bytes c bs with
  | Ok c' => winv L c' (done ++ flat_map (bits_of 8) bs) /\ (length done + 8 * length bs <= Nat.max (8 * L) (length done))%nat
  | Panic => (8 * L < length done + 8 * length bs)%nat
  end.
Proof.
  induction bs as [|b bs IH]; intros c done Hi Hb; cbn [write_bytes flat_map].
  - rewrite app_nil_r. split; [assumption|cbn [length]; lia].
  - inversion Hb; subst. pose proof (write_u_spec L c done 8 b Hi ltac:(lia)) as H. destruct (write_u c 8 b) as [c1|]; cbn [bind length]; [|lia]. destruct H as (I1 & I2).
    specialize (IH c1 _ I1 ltac:(assumption)). rewrite app_length, bits_of_length, <- app_assoc in IH. destruct (write_bytes c1 bs) as [c2|]; [|lia]. destruct IH as (J1 & J2). split; [assumption|lia].
Qed.

Lemma ba_get_spec a i : ba_ok a -> (i < ba_len a)%nat -> ba_get a i = Ok (stream_bit (ba_bytes a) i).
Proof.
  intros (Hb & Hl) Hi. unfold ba_get, split_index. destruct (Nat.ltb_spec i (ba_len a)); [|lia]. cbn [bind fst snd].
  destruct (nth_error (ba_bytes a) (i / 8)) as [b|] eqn:E; [|apply nth_error_None in E; lia]. f_equal. unfold stream_bit.
  apply (nth_error_nth _ _ 0) in E. rewrite E. rewrite <- (N.add_0_l (N.of_nat (i mod 8))), <- N.shiftr_spec', <- land_1_testbit.
  rewrite N.add_0_l. change 1 with (N.ones 1) at 1 3. rewrite N.land_ones. change (2 ^ 1) with 2. assert (H2 : N.shiftr b (N.of_nat (i mod 8)) mod 2 < 2) by (apply N.mod_lt; discriminate).
  destruct (N.eqb_spec (N.shiftr b (N.of_nat (i mod 8)) mod 2) 1) as [->|]; [reflexivity|]. destruct (N.eqb_spec (N.shiftr b (N.of_nat (i mod 8)) mod 2) 0); [reflexivity|lia].
Qed.

Lemma ba_write_bits_spec L a : ba_ok a -> forall n i c done, winv L c done -> (i + n <= ba_len a)%nat ->
  match ba_write_bits c a i n with
  | Ok c' => winv L c' (done ++ map (stream_bit (ba_bytes a)) (seq i n)) /\ (length done + n <= Nat.max (8 * L) (length done))%nat
  | Panic => (8 * L < length done + n)%nat
  end.
Proof.
  intro Ha. induction n as [|n IH]; intros i c done Hi Hn; cbn [ba_write_bits seq map].
  - rewrite app_nil_r. split; [assumption|lia].
  - rewrite ba_get_spec by (assumption || lia). cbn [bind]. unfold write_bool.
    pose proof (write_u_spec L c done 1 (if stream_bit (ba_bytes a) i then 1 else 0) Hi ltac:(lia)) as H. destruct (write_u c 1 _) as [c1|]; cbn [bind]; [|lia]. destruct H as (I1 & I2).
    assert (E : bits_of 1 (if stream_bit (ba_bytes a) i then 1 else 0) = [stream_bit (ba_bytes a) i]) by (destruct (stream_bit (ba_bytes a) i); reflexivity). rewrite E in I1.
    specialize (IH (S i) c1 _ I1 ltac:(lia)). rewrite app_length, <- app_assoc in IH. cbn [length app] in IH. destruct (ba_write_bits c1 a (S i) n) as [c2|]; [|lia]. destruct IH. split; [assumption|lia].
Qed.

Lemma stream_seq bs n : (n = 8 * length bs)%nat -> map (stream_bit bs) (seq 0 n) = flat_map (bits_of 8) bs.
Proof.
  intros ->. apply (nth_ext _ _ (stream_bit bs 0) false); [rewrite map_length, seq_length, flat_bits_length; reflexivity|].
  intros i Hi. rewrite map_length, seq_length in Hi. rewrite map_nth, seq_nth by assumption. rewrite nth_flat_bits. reflexivity.
Qed.

(** One operation: all its bits are written, or there is not enough space. *)
Definition step_good (L : nat) (c : wc) (done : list bool) (bits : list bool) (r : res wc) : Prop :=
  match r with
  | Ok c' => winv L c' (done ++ bits) /\ ((length done < 8 * L + 8)%nat -> (length done + length bits < 8 * L + 8)%nat)
  | Panic => (8 * L < length done + length bits)%nat
  end.

Lemma wrun_nested : forall (c : wc) (body : list wop),
  (fix run (c : wc) (ops : list wop) : res wc := match ops with [] => Ok c | op :: r => bind (wstep c op) (fun c1 => run c1 r) end) c body = wrun c body.
Proof. intros c body. revert c. induction body as [|op body IH]; intro c; [reflexivity|]. cbn [wrun]. destruct (wstep c op); [apply IH|reflexivity]. Qed.
Lemma packs_nested : forall (p : nat) (body : list wop),
  (fix packs (p : nat) (ops : list wop) : list bool := match ops with [] => [] | op :: r => let b := pack p op in b ++ packs (p + length b)%nat r end) p body = packs p body.
Proof. intros p body. revert p. induction body as [|op body IH]; intro p; [reflexivity|]. cbn [packs]. cbv zeta. f_equal; try apply IH. Qed.
Lemma wops_ok_nested : forall (p : nat) (body : list wop),
  (fix ok (p : nat) (ops : list wop) : Prop := match ops with [] => True | op :: r => wop_ok p op /\ ok (p + length (pack p op))%nat r end) p body = wops_ok p body.
Proof. intros p body. revert p. induction body as [|op body IH]; intro p; [reflexivity|]. cbn [wops_ok]. f_equal; try apply IH. Qed.

Lemma wrun_good L ops :
  (forall op, In op ops -> forall c done, winv L c done -> wop_ok (length done) op -> step_good L c done (pack (length done) op) (wstep c op)) ->
  forall c done, winv L c done -> wops_ok (length done) ops -> step_good L c done (packs (length done) ops) (wrun c ops).
Proof.
  induction ops as [|op ops IH]; intros Hall c done Hi Hok; cbn [wrun packs].
  - unfold step_good. rewrite app_nil_r. split; [assumption|cbn [length]; lia].
  - destruct Hok as (Ho & Hok). pose proof (Hall op (or_introl eq_refl) c done Hi Ho) as H1. unfold step_good in H1. destruct (wstep c op) as [c1|]; cbn [bind].
    + destruct H1 as (I1 & I2). rewrite <- app_length in Hok. pose proof (IH (fun o Hin => Hall o (or_intror Hin)) c1 _ I1 Hok) as H2.
      unfold step_good in *. rewrite !app_length in *. destruct (wrun c1 ops) as [c2|]; [|lia]. destruct H2 as (J1 & J2). rewrite <- app_assoc in J1. split; [assumption|lia].
    + unfold step_good. rewrite app_length. lia.
Qed.

Lemma wstep_good L : forall op c done, winv L c done -> wop_ok (length done) op -> step_good L c done (pack (length done) op) (wstep c op).
Proof.
  fix IH 1. intros op c done Hi Ho. destruct op as [n v|b|n| |k v|bs|bs|a|delimited size body]; cbn [wstep pack wop_ok] in *.
  - pose proof (write_u_spec L c done n v Hi Ho) as H. unfold step_good. rewrite bits_of_length. destruct (write_u c n v); [|assumption]. destruct H. split; [assumption|lia].
  - pose proof (write_u_spec L c done 1 (if b then 1 else 0) Hi ltac:(lia)) as H. unfold write_bool, step_good. cbn [length]. destruct (write_u c 1 _); [|assumption].
    destruct H as (H1 & H2). split; [|lia]. replace [b] with (bits_of 1 (if b then 1 else 0)); [assumption|destruct b; reflexivity].
  - pose proof (wc_skip_spec L c done n Hi) as H. unfold step_good. rewrite repeat_length. destruct (wc_skip c n); [|lia]. destruct H. split; [assumption|lia].
  - pose proof (wc_align_spec2 L c done Hi) as H. unfold step_good. destruct (wc_align c); assumption.
  - unfold write_aligned. rewrite (aligned_iff L c done Hi), Ho. cbn [Nat.eqb].
    pose proof (write_block L c done (le_bytes k v) Hi Ho (le_bytes_ok k v)) as H. rewrite le_bytes_length, flat_le_bytes in H. unfold step_good. rewrite bits_of_length.
    match goal with |- match ?X with Ok _ => _ | Panic => _ end => destruct X end; [destruct H; split; [assumption|lia]|assumption].
  - pose proof (write_bytes_spec L bs c done Hi Ho) as H. unfold step_good. rewrite flat_bits_length. destruct (write_bytes c bs); [|assumption]. destruct H. split; [assumption|lia].
  - unfold write_aligned_bytes. pose proof (write_block L c done bs Hi (proj2 Ho) (proj1 Ho)) as H. unfold step_good. rewrite flat_bits_length.
    match goal with |- match ?X with Ok _ => _ | Panic => _ end => destruct X end; [destruct H; split; [assumption|lia]|assumption].
  - unfold ba_serialize. rewrite (aligned_iff L c done Hi). destruct (Nat.eqb_spec (ba_len a) (length (ba_bytes a) * 8)) as [El|El]; cbn [andb].
    + destruct (Nat.eqb_spec (length done mod 8) 0) as [E8|E8].
      * unfold write_aligned_bytes. pose proof (write_block L c done (ba_bytes a) Hi E8 (proj1 Ho)) as H. rewrite <- (stream_seq (ba_bytes a) (ba_len a)) in H by lia.
        unfold step_good. rewrite map_length, seq_length. match goal with |- match ?X with Ok _ => _ | Panic => _ end => destruct X end; [destruct H; split; [assumption|lia]|lia].
      * pose proof (ba_write_bits_spec L a Ho (ba_len a) 0 c done Hi ltac:(lia)) as H. unfold step_good. rewrite map_length, seq_length.
        destruct (ba_write_bits c a 0 (ba_len a)); [destruct H; split; [assumption|lia]|assumption].
    + pose proof (ba_write_bits_spec L a Ho (ba_len a) 0 c done Hi ltac:(lia)) as H. unfold step_good. rewrite map_length, seq_length.
      destruct (ba_write_bits c a 0 (ba_len a)); [destruct H; split; [assumption|lia]|assumption].
  - destruct Ho as (Hbody & Hsize). rewrite wops_ok_nested in Hbody. unfold write_composite. rewrite packs_nested. cbv zeta.
    pose proof (wc_align_spec2 L c done Hi) as H1. set (p1 := (length done + length (pad8 (length done)))%nat) in *.
    assert (Hp1 : (p1 mod 8 = 0)%nat) by (unfold p1; rewrite pad8_length; lia).
    destruct (wc_align c) as [c1|]; cbn [bind]; [|unfold step_good; rewrite !app_length; lia]. destruct H1 as (I1 & I2).
    assert (Hl1 : length (done ++ pad8 (length done)) = p1) by apply app_length.
    set (start := if delimited then (p1 + 32)%nat else p1) in *. set (inner := packs start body) in *.
    set (content := inner ++ pad8 (p1 + length inner)) in *.
    assert (Hlc : length content = (length inner + length (pad8 (p1 + length inner)))%nat) by apply app_length. pose proof Hlc as Hlc0. rewrite pad8_length in Hlc.
    assert (Hp1e : p1 = (length done + length (pad8 (length done)))%nat) by reflexivity.
    set (hdr := if delimited then bits_of 32 (N.of_nat (length content / 8)) else []).
    assert (Hhdr : forall done1, done1 = done ++ pad8 (length done) ->
      match (if delimited then if N.of_nat ((size + 7) / 8) <? 2 ^ 32 then write_u c1 32 (N.of_nat ((size + 7) / 8)) else Panic else Ok c1) with
      | Ok c2 => winv L c2 (done1 ++ hdr) /\ ((p1 < 8 * L + 8)%nat -> (p1 + length hdr < 8 * L + 8)%nat)
      | Panic => (8 * L < p1 + length hdr)%nat
      end).
    { intros done1 ->. unfold hdr. destruct delimited.
      - destruct (Hsize eq_refl) as (Hs1 & Hs2). fold inner in Hs1. destruct (N.ltb_spec (N.of_nat ((size + 7) / 8)) (2 ^ 32)) as [_|Hbad]; [|change (2 ^ 32) with 4294967296 in *; lia].
        replace (length content / 8)%nat with ((size + 7) / 8)%nat by lia.
        pose proof (write_u_spec L c1 _ 32 (N.of_nat ((size + 7) / 8)) I1 ltac:(lia)) as H. rewrite Hl1 in H. rewrite bits_of_length. destruct (write_u c1 32 _); [|assumption]. destruct H. split; [assumption|lia].
      - rewrite app_nil_r. split; [assumption|cbn [length]; lia]. }
    specialize (Hhdr _ eq_refl).
    match goal with |- step_good _ _ _ _ (bind ?X _) => destruct X as [c2|] end; cbn [bind]; [|unfold step_good; fold hdr; rewrite !app_length; lia].
    destruct Hhdr as (J1 & J2). assert (Hstart : length ((done ++ pad8 (length done)) ++ hdr) = start).
    { rewrite app_length, Hl1. unfold start, hdr. destruct delimited; [rewrite bits_of_length|cbn [length]]; lia. }
    rewrite wrun_nested.
    assert (Hbody' : step_good L c2 ((done ++ pad8 (length done)) ++ hdr) inner (wrun c2 body)).
    { unfold inner. rewrite <- Hstart. apply wrun_good; [|assumption|rewrite Hstart; assumption].
      clear - IH. induction body as [|o body IHb]; intros op Hin; [destruct Hin|]. destruct Hin as [<-|Hin]; [apply IH|apply IHb, Hin]. }
    unfold step_good in Hbody'. rewrite Hstart in Hbody'. destruct (wrun c2 body) as [c3|]; cbn [bind].
    + destruct Hbody' as (K1 & K2). pose proof (wc_align_spec2 L c3 _ K1) as H3. rewrite app_length, Hstart in H3.
      replace (pad8 (start + length inner)) with (pad8 (p1 + length inner)) in H3.
      2:{ unfold start. destruct delimited; [|reflexivity]. unfold pad8. f_equal. lia. }
      unfold step_good. fold hdr. rewrite !app_length. rewrite Hlc0. rewrite <- !app_assoc in H3.
      destruct (wc_align c3) as [c4|]; [|unfold start, hdr in *; destruct delimited; rewrite ?bits_of_length in *; cbn [length] in *; lia].
      destruct H3 as (M1 & M2). split; [assumption|]. unfold start, hdr in *; destruct delimited; rewrite ?bits_of_length in *; cbn [length] in *; lia.
    + unfold step_good. fold hdr. rewrite !app_length. unfold start, hdr in *; destruct delimited; rewrite ?bits_of_length in *; cbn [length] in *; lia.
Qed.
