From Verif Require Import Base BitLemmas FlexModel FlexSpec.
Ltac Zify.zify_post_hook ::= Z.div_mod_to_equations.

(** ** Bits *)
Lemma land15 x : N.land x 15 = x mod 16. Proof. exact (N.land_ones x 4). Qed.
Lemma land7 x : N.land x 7 = x mod 8. Proof. exact (N.land_ones x 3). Qed.
Lemma land11 x : N.land x STANDARD_ID_MASK = x mod 2 ^ 11. Proof. exact (N.land_ones x 11). Qed.
Lemma land29 x : N.land x EXTENDED_ID_MASK = x mod 2 ^ 29. Proof. exact (N.land_ones x 29). Qed.
Lemma land18 x : N.land x 0x3ffff = x mod 2 ^ 18. Proof. exact (N.land_ones x 18). Qed.
Lemma flag_testbit w n : flag w n = N.testbit w n.
Proof.
  unfold flag. change 1 with (N.ones 1) at 1. rewrite N.land_ones, N.shiftr_div_pow2.
  change (2 ^ 1) with 2. rewrite <- N.testbit_spec'. destruct (N.testbit w n); reflexivity.
Qed.
Lemma lor_add a b k : a < 2 ^ k -> N.lor a (N.shiftl b k) = a + b * 2 ^ k. Proof. exact (lor_shiftl_add a b k). Qed.
Lemma b2n_bound (b : bool) : N.b2n b < 2. Proof. destruct b; reflexivity. Qed.

Definition valid (h : header) : Prop :=
  hd_timestamp h < 2 ^ 16 /\ hd_dlc h < 16 /\ hd_code h < 16 /\ hd_priority h < 8 /\
  hd_id h < (if hd_ide h then 2 ^ 29 else 2 ^ 11).

Lemma cs_sum h : valid h -> fst (as_bits h) =
  hd_timestamp h + hd_dlc h * 2 ^ 16 + N.b2n (hd_rtr h) * 2 ^ 20 + N.b2n (hd_ide h) * 2 ^ 21 + N.b2n (hd_srr h) * 2 ^ 22
  + hd_code h * 2 ^ 24 + N.b2n (hd_esi h) * 2 ^ 29 + N.b2n (hd_brs h) * 2 ^ 30 + N.b2n (hd_edl h) * 2 ^ 31.
Proof.
  intros (T & D & C & _). unfold as_bits, fst. rewrite !land15.
  rewrite (N.mod_small (hd_dlc h)), (N.mod_small (hd_code h)) by assumption.
  pose proof (b2n_bound (hd_rtr h)). pose proof (b2n_bound (hd_ide h)). pose proof (b2n_bound (hd_srr h)).
  pose proof (b2n_bound (hd_esi h)). pose proof (b2n_bound (hd_brs h)). pose proof (b2n_bound (hd_edl h)).
  generalize dependent (N.b2n (hd_rtr h)). generalize dependent (N.b2n (hd_ide h)).
  generalize dependent (N.b2n (hd_srr h)). generalize dependent (N.b2n (hd_esi h)).
  generalize dependent (N.b2n (hd_brs h)). generalize dependent (N.b2n (hd_edl h)). intros.
  repeat match goal with |- context [N.lor ?a (N.shiftl ?b ?k)] =>
    lazymatch a with context [N.lor] => fail | _ => rewrite (lor_add a b k) by lia end end.
  reflexivity.
Qed.
Lemma id_sum h : valid h -> snd (as_bits h) = (if hd_ide h then hd_id h else hd_id h * 2 ^ 18) + hd_priority h * 2 ^ 29.
Proof.
  intros (_ & _ & _ & P & I). unfold as_bits, snd. rewrite land7, land29, land11, (N.mod_small (hd_priority h)) by assumption.
  rewrite N.shiftl_mul_pow2. destruct (hd_ide h); rewrite N.mod_small by assumption; rewrite lor_add by lia; reflexivity.
Qed.
Lemma testbit_split a b (c : bool) k : a < 2 ^ k -> N.testbit (a + N.b2n c * 2 ^ k + b * 2 ^ (k + 1)) k = c.
Proof.
  intro A. apply N.b2n_inj. rewrite N.testbit_spec'. rewrite N.pow_add_r. change (2 ^ 1) with 2.
  replace (a + N.b2n c * 2 ^ k + b * (2 ^ k * 2)) with (a + (N.b2n c + b * 2) * 2 ^ k) by ring.
  rewrite N.div_add by (apply N.pow_nonzero; discriminate). rewrite N.div_small by assumption.
  rewrite N.add_0_l, N.mod_add by discriminate. apply N.mod_small, b2n_bound.
Qed.

Lemma from_as h : valid h -> from_bits (fst (as_bits h)) (snd (as_bits h)) = h.
Proof.
  intro V. rewrite (cs_sum h V), (id_sum h V). destruct V as (T & D & C & P & I).
  destruct h as [ts dlc rtr ide srr code esi brs edl id pr].
  cbn [hd_timestamp hd_dlc hd_rtr hd_ide hd_srr hd_code hd_esi hd_brs hd_edl hd_id hd_priority] in *.
  unfold from_bits. rewrite !flag_testbit, !land15, land7, land29, land11, !N.shiftr_div_pow2.
  pose proof (b2n_bound rtr) as Br. pose proof (b2n_bound ide) as Bi. pose proof (b2n_bound srr) as Bs.
  pose proof (b2n_bound esi) as Be. pose proof (b2n_bound brs) as Bb. pose proof (b2n_bound edl) as Bd.
  match goal with |- context [N.testbit ?w 21] => set (cs := w) end.
  assert (Hr : N.testbit cs 20 = rtr).
  { unfold cs. etransitivity; [|apply (testbit_split (ts + dlc * 2 ^ 16)
      (N.b2n ide + N.b2n srr * 2 + code * 2 ^ 3 + N.b2n esi * 2 ^ 8 + N.b2n brs * 2 ^ 9 + N.b2n edl * 2 ^ 10) rtr 20); lia].
    f_equal; change (20 + 1) with 21; lia. }
  assert (Hi : N.testbit cs 21 = ide).
  { unfold cs. etransitivity; [|apply (testbit_split (ts + dlc * 2 ^ 16 + N.b2n rtr * 2 ^ 20)
      (N.b2n srr + code * 2 ^ 2 + N.b2n esi * 2 ^ 7 + N.b2n brs * 2 ^ 8 + N.b2n edl * 2 ^ 9) ide 21); lia].
    f_equal; change (21 + 1) with 22; lia. }
  assert (Hs : N.testbit cs 22 = srr).
  { unfold cs. etransitivity; [|apply (testbit_split (ts + dlc * 2 ^ 16 + N.b2n rtr * 2 ^ 20 + N.b2n ide * 2 ^ 21)
      (code * 2 ^ 1 + N.b2n esi * 2 ^ 6 + N.b2n brs * 2 ^ 7 + N.b2n edl * 2 ^ 8) srr 22); lia].
    f_equal; change (22 + 1) with 23; lia. }
  assert (He : N.testbit cs 29 = esi).
  { unfold cs. etransitivity; [|apply (testbit_split (ts + dlc * 2 ^ 16 + N.b2n rtr * 2 ^ 20 + N.b2n ide * 2 ^ 21
      + N.b2n srr * 2 ^ 22 + code * 2 ^ 24) (N.b2n brs + N.b2n edl * 2) esi 29); lia].
    f_equal; change (29 + 1) with 30; lia. }
  assert (Hb : N.testbit cs 30 = brs).
  { unfold cs. etransitivity; [|apply (testbit_split (ts + dlc * 2 ^ 16 + N.b2n rtr * 2 ^ 20 + N.b2n ide * 2 ^ 21
      + N.b2n srr * 2 ^ 22 + code * 2 ^ 24 + N.b2n esi * 2 ^ 29) (N.b2n edl) brs 30); lia].
    f_equal; change (30 + 1) with 31; lia. }
  assert (Hd : N.testbit cs 31 = edl).
  { unfold cs. etransitivity; [|apply (testbit_split (ts + dlc * 2 ^ 16 + N.b2n rtr * 2 ^ 20 + N.b2n ide * 2 ^ 21
      + N.b2n srr * 2 ^ 22 + code * 2 ^ 24 + N.b2n esi * 2 ^ 29 + N.b2n brs * 2 ^ 30) 0 edl 31); lia].
    f_equal; lia. }
  rewrite Hr, Hi, Hs, He, Hb, Hd.
  assert (E1 : cs mod 65536 = ts) by (unfold cs; clear - T; lia).
  assert (E2 : cs / 2 ^ 16 mod 16 = dlc) by (unfold cs; clear - T D; lia).
  assert (E3 : cs / 2 ^ 24 mod 16 = code) by (unfold cs; clear - T D C Br Bi Bs; lia).
  rewrite E1, E2, E3.
  assert (E4 : ((if ide then id else id * 2 ^ 18) + pr * 2 ^ 29) / 2 ^ 29 mod 8 = pr).
  { clear - P I. destruct ide; lia. }
  rewrite E4. f_equal. destruct ide; clear - P I; lia.
Qed.

Definition within (i k n : N) : bool := (k <=? i) && (i <? k + n).
Lemma field_bit w k n i : N.testbit (N.shiftl (N.land (N.shiftr w k) (N.ones n)) k) i = N.testbit w i && within i k n.
Proof.
  unfold within. destruct (N.leb_spec k i) as [L|L].
  - rewrite N.shiftl_spec_high' by assumption. rewrite N.land_spec, N.shiftr_spec'. replace (i - k + k) with i by lia.
    destruct (N.ltb_spec i (k + n)).
    + rewrite N.ones_spec_low by lia. reflexivity.
    + rewrite N.ones_spec_high by lia. reflexivity.
  - rewrite N.shiftl_spec_low by assumption. rewrite andb_false_r. reflexivity.
Qed.
Lemma flag_bit w k i : N.testbit (N.shiftl (N.b2n (flag w k)) k) i = N.testbit w i && within i k 1.
Proof.
  rewrite <- field_bit. do 2 f_equal. rewrite flag_testbit. rewrite N.land_ones, N.shiftr_div_pow2.
  change (2 ^ 1) with 2. apply N.testbit_spec'.
Qed.
Lemma as_from_cs cs id i : i < 32 -> i <> 23 -> i <> 28 -> N.testbit (fst (as_bits (from_bits cs id))) i = N.testbit cs i.
Proof.
  intros I A B. unfold as_bits, from_bits, fst.
  cbn [hd_timestamp hd_dlc hd_rtr hd_ide hd_srr hd_code hd_esi hd_brs hd_edl hd_id hd_priority].
  rewrite !N.lor_spec.
  rewrite !(N.land_comm _ 15), !N.land_assoc. change (N.land 15 15) with 15. rewrite !(N.land_comm 15).
  change 15 with (N.ones 4). rewrite !field_bit, !flag_bit.
  assert (T : N.testbit (cs mod 65536) i = N.testbit cs i && within i 0 16).
  { change 65536 with (2 ^ 16). unfold within. destruct (N.ltb_spec i (0 + 16)).
    - rewrite N.mod_pow2_bits_low by assumption. replace (0 <=? i) with true by (symmetry; apply N.leb_le; lia). rewrite andb_true_r. reflexivity.
    - rewrite N.mod_pow2_bits_high by assumption. rewrite !andb_false_r. reflexivity. }
  rewrite T, <- !andb_orb_distrib_r.
  assert (O : (within i 0 16 || within i 16 4 || within i 20 1 || within i 21 1 || within i 22 1 || within i 24 4
    || within i 29 1 || within i 30 1 || within i 31 1)%bool = true).
  { unfold within. rewrite ?orb_true_iff, ?andb_true_iff, ?N.leb_le, ?N.ltb_lt. lia. }
  rewrite O. apply andb_true_r.
Qed.
Lemma as_from_id cs id i : i < 32 -> (hd_ide (from_bits cs id) = false -> 18 <= i) ->
  N.testbit (snd (as_bits (from_bits cs id))) i = N.testbit id i.
Proof.
  intros I A. unfold as_bits, from_bits, snd in *.
  cbn [hd_timestamp hd_dlc hd_rtr hd_ide hd_srr hd_code hd_esi hd_brs hd_edl hd_id hd_priority] in *.
  rewrite !N.lor_spec.
  rewrite !(N.land_comm _ 7), !N.land_assoc. change (N.land 7 7) with 7. rewrite !(N.land_comm 7).
  change 7 with (N.ones 3). rewrite field_bit.
  destruct (flag cs 21).
  - rewrite !land29, N.mod_mod by discriminate. unfold within. destruct (N.ltb_spec i 29).
    + rewrite N.mod_pow2_bits_low by assumption. destruct (N.testbit id i); reflexivity.
    + rewrite N.mod_pow2_bits_high by assumption. replace (29 <=? i) with true by (symmetry; apply N.leb_le; lia).
      replace (i <? 29 + 3) with true by (symmetry; apply N.ltb_lt; lia). rewrite andb_true_r. reflexivity.
  - specialize (A eq_refl). rewrite !(N.land_comm _ STANDARD_ID_MASK), !N.land_assoc.
    change (N.land STANDARD_ID_MASK STANDARD_ID_MASK) with (N.ones 11). rewrite !(N.land_comm (N.ones 11)).
    rewrite field_bit, <- andb_orb_distrib_r.
    assert (O : (within i 18 11 || within i 29 3)%bool = true).
    { unfold within. rewrite ?orb_true_iff, ?andb_true_iff, ?N.leb_le, ?N.ltb_lt. lia. }
    rewrite O. apply andb_true_r.
Qed.

(** ** Priority *)
Fixpoint value (l : list bool) : N := match l with [] => 0 | b :: l => N.b2n b * 2 ^ N.of_nat (length l) + value l end.
Lemma value_bound l : value l < 2 ^ N.of_nat (length l).
Proof.
  induction l as [|b l IH]; [reflexivity|]. cbn [value length]. rewrite Nat2N.inj_succ, N.pow_succ_r'.
  destruct b; cbn [N.b2n]; lia.
Qed.
Lemma value_app a b : value (a ++ b) = value a * 2 ^ N.of_nat (length b) + value b.
Proof.
  induction a as [|x a IH]; [reflexivity|]. cbn [value app]. rewrite IH, app_length, Nat2N.inj_add, N.pow_add_r. ring.
Qed.
Lemma value_msb n v : value (msb_first n v) = v mod 2 ^ N.of_nat n.
Proof.
  revert v. induction n as [|n IH]; intro v; [rewrite N.mod_1_r; reflexivity|].
  assert (E : msb_first (S n) v = N.testbit v (N.of_nat n) :: msb_first n v).
  { unfold msb_first. cbn [seq map]. f_equal; [do 2 f_equal; lia|]. rewrite <- seq_shift, map_map. apply map_ext_in.
    intros i Hi. apply in_seq in Hi. do 2 f_equal. lia. }
  rewrite E. cbn [value]. rewrite IH. unfold msb_first. rewrite map_length, seq_length.
  rewrite Nat2N.inj_succ, N.pow_succ_r', (N.mul_comm 2), N.mod_mul_r by (try apply N.pow_nonzero; discriminate).
  rewrite <- N.testbit_spec'. ring.
Qed.
Lemma msb_length n v : length (msb_first n v) = n.
Proof. unfold msb_first. rewrite map_length, seq_length. reflexivity. Qed.
(** Lists of the same length: they are the same, or differ first in one bit *)
Lemma first_difference (a b : list bool) : length a = length b ->
  a = b \/ (exists c ra rb, a = c ++ false :: ra /\ b = c ++ true :: rb) \/ (exists c ra rb, a = c ++ true :: ra /\ b = c ++ false :: rb).
Proof.
  revert b. induction a as [|x a IH]; intros [|y b] L; try discriminate; [left; reflexivity|]. injection L as L.
  destruct (Bool.bool_dec x y) as [->|N].
  - destruct (IH b L) as [->|[(c & ra & rb & -> & ->)|(c & ra & rb & -> & ->)]]; [left; reflexivity| |].
    + right; left. exists (y :: c), ra, rb. split; reflexivity.
    + right; right. exists (y :: c), ra, rb. split; reflexivity.
  - destruct x, y; try congruence.
    + right; right. exists [], a, b. split; reflexivity.
    + right; left. exists [], a, b. split; reflexivity.
Qed.
Lemma difference_less c ra rb : length ra = length rb -> value (c ++ false :: ra) < value (c ++ true :: rb).
Proof.
  intro L. rewrite !value_app. cbn [length]. rewrite <- L.
  assert (value (false :: ra) < value (true :: rb)); [|lia].
  cbn [value N.b2n]. rewrite L. pose proof (value_bound ra). rewrite L in *. lia.
Qed.
Definition padded (w : can_frame) : list bool := arbitration_field w ++ (if w_extended w then [] else repeat false 19).
Lemma padded_length w : length (padded w) = 32%nat.
Proof. unfold padded, arbitration_field. destruct (w_extended w); rewrite !app_length, !msb_length; reflexivity. Qed.
Lemma wins_value a b : wins a b -> value (padded a) < value (padded b).
Proof.
  intros (c & ra & rb & A & B). unfold padded. pose proof (padded_length a) as La. pose proof (padded_length b) as Lb.
  unfold padded in *. rewrite A in *. rewrite B in *. rewrite <- !app_assoc in *. cbn [app] in *. apply difference_less.
  rewrite !app_length in La, Lb. cbn [length] in La, Lb. lia.
Qed.
Lemma arbitration_cases a b : arbitration_field a = arbitration_field b \/ wins a b \/ wins b a.
Proof.
  unfold wins. destruct (w_extended a) eqn:Ea, (w_extended b) eqn:Eb.
  1,4: destruct (first_difference (arbitration_field a) (arbitration_field b)) as [E|[H|(c & ra & rb & A & B)]];
    [unfold arbitration_field; rewrite Ea, Eb, !app_length, !msb_length; reflexivity|left; exact E|right; left; exact H
    |right; right; exists c, rb, ra; split; assumption].
  - (* [a] extended, [b] standard *)
    unfold arbitration_field. rewrite Ea, Eb. rewrite (app_assoc (msb_first 11 (w_ident a / 2 ^ 18))).
    destruct (first_difference (msb_first 11 (w_ident a / 2 ^ 18) ++ [true; true]) (msb_first 11 (w_ident b) ++ [w_remote b; false]))
      as [E|[(c & ra & rb & A & B)|(c & ra & rb & A & B)]].
    + rewrite !app_length, !msb_length. reflexivity.
    + apply (f_equal (fun l => last l false)) in E.
      change [true; true] with ([true] ++ [true]) in E. change [w_remote b; false] with ([w_remote b] ++ [false]) in E.
      rewrite !app_assoc, !last_last in E. discriminate.
    + rewrite A, B. right; left. rewrite <- app_assoc. cbn [app]. eauto.
    + rewrite A, B. right; right. rewrite <- app_assoc. cbn [app]. eauto.
  - unfold arbitration_field. rewrite Ea, Eb. rewrite (app_assoc (msb_first 11 (w_ident b / 2 ^ 18))).
    destruct (first_difference (msb_first 11 (w_ident b / 2 ^ 18) ++ [true; true]) (msb_first 11 (w_ident a) ++ [w_remote a; false]))
      as [E|[(c & ra & rb & A & B)|(c & ra & rb & A & B)]].
    + rewrite !app_length, !msb_length. reflexivity.
    + apply (f_equal (fun l => last l false)) in E.
      change [true; true] with ([true] ++ [true]) in E. change [w_remote a; false] with ([w_remote a] ++ [false]) in E.
      rewrite !app_assoc, !last_last in E. discriminate.
    + rewrite A, B. right; right. rewrite <- app_assoc. cbn [app]. eauto.
    + rewrite A, B. right; left. rewrite <- app_assoc. cbn [app]. eauto.
Qed.
Lemma field_format a b : arbitration_field a = arbitration_field b -> w_extended a = w_extended b.
Proof.
  intro E. apply (f_equal (@length bool)) in E. unfold arbitration_field in E.
  destruct (w_extended a), (w_extended b); try reflexivity; rewrite !app_length, !msb_length in E; discriminate.
Qed.
Lemma compare_value a b : N.compare (value (padded a)) (value (padded b)) = Lt <-> wins a b.
Proof.
  rewrite N.compare_lt_iff. split; [|apply wins_value].
  intro L. destruct (arbitration_cases a b) as [E|[H|H]]; [|assumption|].
  - unfold padded in L. rewrite E, (field_format _ _ E) in L. lia.
  - apply wins_value in H. lia.
Qed.
Lemma value_padded w : value (padded w) =
  if w_extended w then (w_ident w / 2 ^ 18) mod 2 ^ 11 * 2 ^ 21 + 2 ^ 20 + 2 ^ 19 + (w_ident w mod 2 ^ 18) * 2 + N.b2n (w_remote w)
  else w_ident w mod 2 ^ 11 * 2 ^ 21 + N.b2n (w_remote w) * 2 ^ 20.
Proof.
  unfold padded, arbitration_field. destruct (w_extended w).
  - rewrite app_nil_r, !value_app, !value_msb, !app_length, msb_length. cbn [length value].
    change (N.of_nat 11) with 11. change (N.of_nat 18) with 18. rewrite N.mod_mod by discriminate.
    replace (N.of_nat (2 + (18 + 1))) with 21 by reflexivity. replace (N.of_nat (18 + 1)) with 19 by reflexivity.
    change (N.of_nat 1) with 1. change (N.of_nat 0) with 0. cbn [N.b2n]. clear. lia.
  - rewrite !value_app, value_msb, repeat_length. cbn [length value repeat].
    change (N.of_nat 11) with 11. change (N.of_nat 19) with 19. change (N.of_nat 2) with 2. change (N.of_nat 1) with 1.
    change (N.of_nat 0) with 0. cbn [N.b2n].
    rewrite !N.mul_0_l, !N.add_0_r. clear. lia.
Qed.

(** ** Frames *)
Lemma id_extended_right bits : id_is_extended (id_extended bits) = true /\ id_bits (id_extended bits) = bits mod 2 ^ 29.
Proof.
  unfold id_is_extended, id_bits, id_extended. rewrite !land29.
  assert (E : N.lor EXTENDED_ID_FLAG (bits mod 2 ^ 29) = bits mod 2 ^ 29 + 1 * 2 ^ 31).
  { rewrite N.lor_comm. change EXTENDED_ID_FLAG with (N.shiftl 1 31). apply lor_add. lia. }
  split.
  - rewrite E. change EXTENDED_ID_FLAG with (2 ^ 31). rewrite land_pow2_testbit.
    apply N.b2n_inj. rewrite N.testbit_spec'. cbn [N.b2n]. lia.
  - rewrite E. lia.
Qed.
Lemma id_standard_right bits : id_is_extended (id_standard bits) = false /\ id_bits (id_standard bits) = bits mod 2 ^ 11.
Proof.
  unfold id_is_extended, id_bits, id_standard. rewrite !land11, !land29. split; [|lia].
  change EXTENDED_ID_FLAG with (2 ^ 31). rewrite land_pow2_testbit. apply N.b2n_inj. rewrite N.testbit_spec'. cbn [N.b2n]. lia.
Qed.
Lemma from_length_length n dlc : dlc_from_length n = Some dlc -> dlc < 16 /\ dlc_length dlc = n /\ (n <= 64)%nat /\ ((n <= 8)%nat -> dlc = N.of_nat n).
Proof.
  unfold dlc_from_length. intro E.
  do 65 (destruct n as [|n]; [try discriminate; injection E as <-; repeat split; try reflexivity; lia|]). discriminate.
Qed.
Lemma frame_new_data id data f : frame_new id data = Some f -> frame_data f = data.
Proof.
  unfold frame_new. destruct (dlc_from_length (length data)) as [dlc|] eqn:E; [|discriminate]. intros [= <-].
  unfold frame_data. cbn [fr_dlc fr_data]. apply from_length_length in E. destruct E as (_ & -> & _).
  rewrite firstn_app, Nat.sub_diag, firstn_all, firstn_O, app_nil_r. reflexivity.
Qed.
Definition header_for (w : can_frame) : header :=
  Header 0 (w_dlc w) (w_remote w) (w_extended w) (w_extended w) CODE_TX_DATA false false false (w_ident w) 0.
(** What is known of a frame that was made with the API *)
Definition proper (w : can_frame) : Prop :=
  w_dlc w < 16 /\ w_ident w < (if w_extended w then 2 ^ 29 else 2 ^ 11) /\
  if w_remote w then w_bytes w = [] else (length (w_bytes w) <= 8)%nat /\ w_dlc w = N.of_nat (length (w_bytes w)).
Lemma made_right f w : made f w -> header_of f = header_for w /\ proper w /\ (w_remote w = false -> frame_data f = w_bytes w).
Proof.
  intros [x bits data f' E L|x bits dlc f' E]; unfold header_for, proper; cbn [w_dlc w_remote w_extended w_ident w_bytes].
  - pose proof (frame_new_data _ _ _ E) as D. unfold frame_new in E.
    destruct (dlc_from_length (length data)) as [dlc|] eqn:F; [|discriminate]. injection E as <-.
    apply from_length_length in F. destruct F as (F1 & F2 & F3 & F4). specialize (F4 L). subst dlc.
    unfold header_of. cbn [fr_dlc fr_remote fr_id]. split; [|split; [split; [assumption|split; [|split; [assumption|reflexivity] ] ]|intros _; exact D] ].
    + destruct x; [destruct (id_extended_right bits) as [-> ->]|destruct (id_standard_right bits) as [-> ->]]; reflexivity.
    + destruct x; lia.
  - unfold frame_new_remote, dlc_from_u8 in E. destruct (N.ltb_spec dlc 16) as [F|F]; [|discriminate]. injection E as <-.
    unfold header_of. cbn [fr_dlc fr_remote fr_id]. split; [|split; [split; [assumption|split; [|reflexivity] ]|discriminate] ].
    + destruct x; [destruct (id_extended_right bits) as [-> ->]|destruct (id_standard_right bits) as [-> ->]]; reflexivity.
    + destruct x; lia.
Qed.
Lemma header_valid w : proper w -> valid (header_for w).
Proof. intros (D & I & _). unfold valid, header_for. cbn. repeat split; try assumption; lia. Qed.
Lemma mailbox_value w : proper w -> mailbox_arbitration_value (header_for w) = value (padded w).
Proof.
  intros (_ & I & _). rewrite value_padded. unfold mailbox_arbitration_value, header_for. cbn [hd_ide hd_id hd_srr hd_rtr].
  pose proof (b2n_bound (w_remote w)) as B. destruct (w_extended w).
  - rewrite land18, !N.shiftr_div_pow2. cbn [N.b2n]. generalize dependent (N.b2n (w_remote w)). intros r B.
    generalize dependent (w_ident w). intros id I.
    rewrite (N.mod_small (id / 2 ^ 18)) by lia.
    assert (E1 : N.shiftl (id / 2 ^ 18) 21 mod 2 ^ 32 = N.shiftl (id / 2 ^ 18) 21).
    { apply N.mod_small. rewrite N.shiftl_mul_pow2. lia. }
    rewrite E1. clear E1.
    replace (N.lor (N.lor (N.lor (N.lor (N.shiftl (id / 2 ^ 18) 21) (N.shiftl 1 20)) (N.shiftl 1 19)) (N.shiftl (id mod 2 ^ 18) 1)) r)
      with (N.lor (N.lor (N.lor (N.lor r (N.shiftl (id mod 2 ^ 18) 1)) (N.shiftl 1 19)) (N.shiftl 1 20)) (N.shiftl (id / 2 ^ 18) 21)).
    2: { apply N.bits_inj; intro i. rewrite !N.lor_spec.
         repeat match goal with |- context [N.testbit ?a ?b] => destruct (N.testbit a b) end; reflexivity. }
    rewrite (lor_add r) by (clear - B; lia).
    rewrite (lor_add (r + id mod 2 ^ 18 * 2 ^ 1)) by (clear - B; lia).
    rewrite (lor_add (r + id mod 2 ^ 18 * 2 ^ 1 + 1 * 2 ^ 19)) by (clear - B; lia).
    rewrite (lor_add (r + id mod 2 ^ 18 * 2 ^ 1 + 1 * 2 ^ 19 + 1 * 2 ^ 20)) by (clear - B; lia).
    clear. lia.
  - generalize dependent (N.b2n (w_remote w)). intros r B. rewrite (N.mod_small (w_ident w)) by assumption.
    assert (E1 : N.shiftl (w_ident w) 21 mod 2 ^ 32 = N.shiftl (w_ident w) 21).
    { apply N.mod_small. rewrite N.shiftl_mul_pow2. lia. }
    rewrite E1, N.lor_comm, lor_add; [rewrite N.shiftl_mul_pow2; lia|]. rewrite N.shiftl_mul_pow2. lia.
Qed.
Lemma compare_right a b : proper a -> proper b -> compare_transmit_priority (header_for a) (header_for b) = Lt <-> wins b a.
Proof.
  intros A B. unfold compare_transmit_priority. rewrite (mailbox_value a A), (mailbox_value b B), <- N.compare_antisym.
  apply compare_value.
Qed.
Lemma compare_gt a b : proper a -> proper b -> compare_transmit_priority (header_for a) (header_for b) = Gt <-> wins a b.
Proof.
  intros A B. unfold compare_transmit_priority. rewrite (mailbox_value a A), (mailbox_value b B), <- compare_value.
  destruct (value (padded a) ?= value (padded b)); cbn [CompOpp]; split; congruence.
Qed.

(** ** Data *)
Lemma shift_index_right i : shift_index i = (4 * (i / 4) + (3 - i mod 4))%nat.
Proof.
  unfold shift_index.
  assert (H : forall q r : N, r < 4 -> N.lxor (4 * q + r) 3 = 4 * q + (3 - r)).
  { intros q r R. assert (C : r = 0 \/ r = 1 \/ r = 2 \/ r = 3) by lia.
    destruct C as [->|[->|[->| ->]]]; destruct q; reflexivity. }
  assert (E : N.of_nat i = 4 * N.of_nat (i / 4) + N.of_nat (i mod 4)) by (pose proof (Nat.div_mod i 4); lia).
  pose proof (Nat.mod_upper_bound i 4). rewrite E, H by lia. lia.
Qed.
Lemma shift_index_inj i j : shift_index i = shift_index j -> i = j.
Proof. rewrite !shift_index_right. lia. Qed.
Lemma shift_index_bound i n : (n mod 4 = 0)%nat -> (i < n)%nat -> (shift_index i < n)%nat.
Proof. rewrite shift_index_right. lia. Qed.
Lemma upd_length {A} (l : list A) i x : length (upd l i x) = length l.
Proof. revert i. induction l as [|y l IH]; intros [|i]; cbn; rewrite ?IH; reflexivity. Qed.
Lemma nth_upd {A} (l : list A) i j x d : (i < length l)%nat -> nth j (upd l i x) d = if (j =? i)%nat then x else nth j l d.
Proof.
  revert i j. induction l as [|y l IH]; intros [|i] [|j] L; cbn in *; try lia; try reflexivity.
  rewrite IH by lia. reflexivity.
Qed.
Lemma write_from_length data : forall i buffer, length (write_data_from i data buffer) = length buffer.
Proof. induction data as [|b data IH]; intros i buffer; cbn; rewrite ?IH, ?upd_length; reflexivity. Qed.
Lemma write_from_nth data : forall i buffer j, (length buffer mod 4 = 0)%nat -> (i + length data <= length buffer)%nat ->
  nth (shift_index j) (write_data_from i data buffer) 0 =
  if ((i <=? j) && (j <? i + length data))%nat then nth (j - i) data 0 else nth (shift_index j) buffer 0.
Proof.
  induction data as [|b data IH]; intros i buffer j M L; cbn [write_data_from length] in *.
  - destruct (Nat.leb_spec i j), (Nat.ltb_spec j (i + 0)); try reflexivity; lia.
  - rewrite IH; rewrite ?upd_length; try assumption; try lia.
    rewrite nth_upd by (apply shift_index_bound; lia).
    destruct (Nat.leb_spec (S i) j), (Nat.ltb_spec j (S i + length data)), (Nat.leb_spec i j), (Nat.ltb_spec j (i + S (length data)));
      cbn [andb]; try lia; try reflexivity.
    + replace (j - i)%nat with (S (j - S i)) by lia. reflexivity.
    + destruct (Nat.eqb_spec (shift_index j) (shift_index i)) as [E|E]; [apply shift_index_inj in E; lia|reflexivity].
    + replace j with i by lia. rewrite Nat.eqb_refl, Nat.sub_diag. reflexivity.
    + destruct (Nat.eqb_spec (shift_index j) (shift_index i)) as [E|E]; [apply shift_index_inj in E; lia|reflexivity].
Qed.
Lemma nth_firstn_lt (l : list N) n i : (i < n)%nat -> nth i (firstn n l) 0 = nth i l 0.
Proof.
  revert n i. induction l as [|x l IH]; intros [|n] [|i] H; try lia; try reflexivity. cbn. apply IH. lia.
Qed.
Lemma write_data_length data buffer : length (write_data data buffer) = length buffer.
Proof. apply write_from_length. Qed.
Lemma write_data_nth data buffer i : (length buffer mod 4 = 0)%nat -> (i < length data)%nat -> (i < length buffer)%nat ->
  nth (shift_index i) (write_data data buffer) 0 = nth i data 0.
Proof.
  intros M D B. unfold write_data. rewrite write_from_nth; [|assumption|rewrite firstn_length; lia].
  rewrite firstn_length. replace ((0 <=? i) && (i <? 0 + Nat.min (Nat.min (length data) (length buffer)) (length data)))%nat with true.
  2: { symmetry. rewrite andb_true_iff, Nat.leb_le, Nat.ltb_lt. lia. }
  rewrite Nat.sub_0_r. apply nth_firstn_lt. lia.
Qed.
Lemma read_write data buffer : (length buffer mod 4 = 0)%nat -> (length data <= length buffer)%nat ->
  read_data (length data) (write_data data buffer) = data.
Proof.
  intros M L. apply (nth_ext _ _ 0 0); unfold read_data; rewrite map_length, seq_length; [reflexivity|].
  intros i I. rewrite (nth_indep _ 0 ((fun i => if (i <? Nat.min (length data) (length (write_data data buffer)))%nat
    then nth (shift_index i) (write_data data buffer) 0 else 0) 0%nat)) by (rewrite map_length, seq_length; assumption).
  rewrite (map_nth (fun i => if (i <? Nat.min (length data) (length (write_data data buffer)))%nat
    then nth (shift_index i) (write_data data buffer) 0 else 0)), seq_nth by assumption. cbn [Nat.add].
  rewrite write_data_length. destruct (Nat.ltb_spec i (Nat.min (length data) (length buffer))); [|lia].
  apply write_data_nth; lia.
Qed.
Lemma map_seq_nth (l : list N) : map (fun i => nth i l 0) (seq 0 (length l)) = l.
Proof.
  induction l as [|x l IH]; [reflexivity|]. cbn [length seq map nth]. f_equal. rewrite <- seq_shift, map_map. exact IH.
Qed.

(** ** What is in the buffer *)
Definition encodes (w : can_frame) (m : message) : Prop :=
  m_cs m = fst (as_bits (header_for w)) /\ m_id m = snd (as_bits (header_for w)) /\ carried m = w.
Lemma code_from cs id : hd_code (from_bits cs id) = code_of cs.
Proof. unfold from_bits, code_of. cbn [hd_code]. rewrite land15, N.shiftr_div_pow2. reflexivity. Qed.
Lemma dlc_from cs id : hd_dlc (from_bits cs id) = cs / 2 ^ 16 mod 16.
Proof. unfold from_bits. cbn [hd_dlc]. rewrite land15, N.shiftr_div_pow2. reflexivity. Qed.
Lemma code_header w : proper w -> code_of (fst (as_bits (header_for w))) = CODE_TX_DATA.
Proof. intro P. rewrite <- (code_from _ (snd (as_bits (header_for w)))), from_as by (apply header_valid; assumption). reflexivity. Qed.
Lemma carried_right w data buffer : proper w -> length buffer = 8%nat -> (w_remote w = false -> data = w_bytes w) ->
  carried (Message (fst (as_bits (header_for w))) (snd (as_bits (header_for w))) (write_data data buffer)) = w.
Proof.
  intros P L D. pose proof (from_as (header_for w) (header_valid w P)) as F.
  unfold carried. cbn [m_cs m_id m_data].
  set (cs := fst (as_bits (header_for w))) in *. set (id := snd (as_bits (header_for w))) in *.
  assert (E1 : N.testbit cs 21 = w_extended w).
  { rewrite <- flag_testbit. change (flag cs 21) with (hd_ide (from_bits cs id)). rewrite F. reflexivity. }
  assert (E2 : N.testbit cs 20 = w_remote w).
  { rewrite <- flag_testbit. change (flag cs 20) with (hd_rtr (from_bits cs id)). rewrite F. reflexivity. }
  assert (E3 : cs / 2 ^ 16 mod 16 = w_dlc w).
  { rewrite <- (dlc_from cs id), F. reflexivity. }
  assert (E4 : (if w_extended w then id mod 2 ^ 29 else id / 2 ^ 18 mod 2 ^ 11) = w_ident w).
  { rewrite <- land29, <- land11, <- N.shiftr_div_pow2, <- E1, <- flag_testbit.
    change (hd_id (from_bits cs id) = w_ident w). rewrite F. reflexivity. }
  rewrite E1, E2, E3, E4. destruct w as [x ident rem dlc bytes]. cbn [w_extended w_ident w_remote w_dlc w_bytes] in *.
  f_equal. destruct P as (_ & _ & P). cbn [w_remote w_bytes w_dlc] in P.
  destruct rem; [symmetry; assumption|]. destruct P as [B ->]. rewrite (D eq_refl). rewrite Nat2N.id, Nat.min_r by assumption.
  etransitivity; [|apply map_seq_nth]. apply map_ext_in. intros i I. apply in_seq in I.
  rewrite <- shift_index_right. apply write_data_nth; [rewrite L; reflexivity|lia|lia].
Qed.

(** ** The controller *)
Definition evolves (b b' : message) : Prop :=
  b' = b \/ code_of (m_cs b') = CODE_TX_INACTIVE /\ m_id b' = m_id b /\ m_data b' = m_data b.
Lemma evolves_trans a b c : evolves a b -> evolves b c -> evolves a c.
Proof. unfold evolves. intros [->|(A1 & A2 & A3)] [->|(B1 & B2 & B3)]; [left; reflexivity|right; auto|right; auto|right; rewrite B2, B3; auto]. Qed.
Lemma code_set cs code : code < 16 -> code_of (set_code cs code) = code.
Proof. intro C. unfold set_code, code_of. lia. Qed.
Lemma act_evolves c a : evolves (c_buffer c) (c_buffer (act c a)).
Proof.
  unfold act. destruct a, (c_flight c); try (left; reflexivity).
  - destruct (code_of (m_cs (c_buffer c)) =? CODE_TX_DATA); left; reflexivity.
  - right. cbn [c_buffer m_cs m_id m_data]. split; [apply code_set; reflexivity|split; reflexivity].
  - destruct (c_abort c); left; reflexivity.
Qed.
Lemma acts_evolve acts : forall c, evolves (c_buffer c) (c_buffer (fold_left act acts c)).
Proof.
  induction acts as [|a acts IH]; intro c; [left; reflexivity|]. cbn [fold_left].
  eapply evolves_trans; [apply act_evolves|apply IH].
Qed.
Lemma tick_evolves s : evolves (c_buffer (fst s)) (c_buffer (fst (tick s))).
Proof. unfold tick. destruct s as [c [|b s]]; cbn [fst snd]; [left; reflexivity|apply acts_evolve]. Qed.
Lemma wait_evolves fuel : forall s s', wait_for_outcome fuel s = Some s' -> evolves (c_buffer (fst s)) (c_buffer (fst s')).
Proof.
  induction fuel as [|fuel IH]; intros s s' E; cbn [wait_for_outcome] in E; [discriminate|]. unfold read_flag in E.
  destruct (c_flag (fst (tick s))).
  - eapply evolves_trans; [apply tick_evolves|apply IH; exact E].
  - injection E as <-. apply tick_evolves.
Qed.
Lemma evolves_data a b : evolves a b -> m_id b = m_id a /\ m_data b = m_data a.
Proof. intros [->|(_ & A & B)]; auto. Qed.
Lemma evolves_active a b : evolves a b -> code_of (m_cs b) = CODE_TX_DATA -> b = a.
Proof. intros [->|(A & _)] C; [reflexivity|]. rewrite A in C. discriminate. Qed.

Definition buf (s : state) : message := c_buffer (fst s).
Lemma store_data_right data s : m_data (buf (store_data data s)) = write_data data (m_data (buf s)).
Proof.
  unfold store_data, buf. cbn [fst c_buffer m_data]. destruct (evolves_data _ _ (tick_evolves s)) as [_ ->]. reflexivity.
Qed.
Lemma write_id_right id s : m_id (buf (write_id id s)) = id /\ m_data (buf (write_id id s)) = m_data (buf s).
Proof.
  unfold write_id, buf. cbn [fst c_buffer m_data m_id]. destruct (evolves_data _ _ (tick_evolves s)) as [_ ->]. auto.
Qed.
Lemma write_cs_right cs s : buf (write_cs cs s) = Message cs (m_id (buf s)) (m_data (buf s)).
Proof.
  unfold write_cs, buf. cbn [fst c_buffer]. destruct (evolves_data _ _ (tick_evolves s)) as [-> ->]. reflexivity.
Qed.
Lemma write_header_right h s : buf (write_header h s) = Message (fst (as_bits h)) (snd (as_bits h)) (m_data (buf s)).
Proof. unfold write_header. rewrite write_cs_right. destruct (write_id_right (snd (as_bits h)) s) as [-> ->]. reflexivity. Qed.
Lemma store_right f w s : made f w -> length (m_data (buf s)) = 8%nat ->
  encodes w (buf (store f s)) /\ length (m_data (buf (store f s))) = 8%nat.
Proof.
  intros M L. destruct (made_right f w M) as (H & P & D). unfold store. rewrite H, write_header_right, store_data_right.
  cbn [m_data]. split; [|rewrite write_data_length; assumption].
  split; [reflexivity|]. split; [reflexivity|]. apply carried_right; assumption.
Qed.

(** ** Every history *)
Definition holds (last : option can_frame) (c : controller) : Prop :=
  length (m_data (c_buffer c)) = 8%nat /\
  (code_of (m_cs (c_buffer c)) = CODE_TX_DATA -> exists w, last = Some w /\ proper w /\ encodes w (c_buffer c)).
Lemma read_header_right s : exists cs, read_header s = (from_bits cs (m_id (buf s)), tick (tick s)) /\
  (code_of cs = CODE_TX_DATA -> cs = m_cs (buf s) /\ code_of (m_cs (buf s)) = CODE_TX_DATA).
Proof.
  unfold read_header. exists (m_cs (buf (tick s))). split.
  - destruct (evolves_data _ _ (tick_evolves s)) as [E _]. destruct (evolves_data _ _ (tick_evolves (tick s))) as [E' _].
    unfold buf. rewrite E', E. reflexivity.
  - intro C. pose proof (evolves_active _ _ (tick_evolves s) C) as E. unfold buf in *. rewrite E in *. auto.
Qed.
Lemma clear_flag_evolves s : evolves (buf s) (buf (clear_flag s)).
Proof. unfold clear_flag, buf. cbn [fst c_buffer]. apply tick_evolves. Qed.
Lemma holds_evolves last c c' : holds last c -> evolves (c_buffer c) (c_buffer c') -> holds last c'.
Proof.
  intros [L H] E. destruct (evolves_data _ _ E) as [_ D]. split; [rewrite D; assumption|].
  intro C. pose proof (evolves_active _ _ E C) as B. rewrite B in *. apply H, C.
Qed.
Lemma eta w : proper w -> w = CanFrame (w_extended w) (w_ident w) (w_remote w) (w_dlc w) (if w_remote w then [] else w_bytes w).
Proof. intros (_ & _ & P). destruct w as [x i r d b]. cbn in *. destruct r; [rewrite P|]; reflexivity. Qed.
Lemma small_length n : (n <= 8)%nat -> dlc_from_length n = Some (N.of_nat n).
Proof. intro H. do 9 (destruct n as [|n]; [reflexivity|]). lia. Qed.
(** The frame that is given back is the one that was in the buffer *)
Lemma removed_right w s : proper w -> carried (Message (fst (as_bits (header_for w))) (snd (as_bits (header_for w))) (m_data (buf s))) = w ->
  length (m_data (buf s)) = 8%nat ->
  exists g s', removed_frame (header_for w) s = (Returns g, s') /\ made g w /\ evolves (buf s) (buf s').
Proof.
  intros P C L. pose proof P as (D & I & B). unfold removed_frame, header_for. cbn [hd_ide hd_id hd_rtr hd_dlc].
  set (id := if w_extended w then id_extended (w_ident w) else id_standard (w_ident w mod 65536)).
  assert (ID : exists bits, id = (if w_extended w then id_extended bits else id_standard bits) /\
    bits mod 2 ^ (if w_extended w then 29 else 11) = w_ident w).
  { unfold id. destruct (w_extended w); [exists (w_ident w)|exists (w_ident w mod 65536)]; (split; [reflexivity|]); lia. }
  destruct ID as (bits & E & F). destruct (w_remote w) eqn:R.
  - unfold frame_new_remote, dlc_from_u8. replace (w_dlc w <? 16) with true by (symmetry; apply N.ltb_lt; assumption).
    eexists; exists s. split; [reflexivity|]. split; [|left; reflexivity].
    rewrite (eta w P), R, <- F. apply MadeRemote. rewrite <- E. unfold frame_new_remote, dlc_from_u8.
    replace (w_dlc w <? 16) with true by (symmetry; apply N.ltb_lt; assumption). reflexivity.
  - destruct B as [B1 B2]. rewrite B2, Nat2N.id. replace (8 <? length (w_bytes w))%nat with false by (symmetry; apply Nat.ltb_ge; assumption).
    unfold load_data. set (s' := tick s). assert (T : evolves (buf s) (buf s')) by apply tick_evolves.
    destruct (evolves_data _ _ T) as [_ T']. fold (buf s'). rewrite T'.
    assert (V : read_data (length (w_bytes w)) (m_data (buf s)) = w_bytes w).
    { apply (f_equal w_bytes) in C. unfold carried in C. cbn [m_cs m_id m_data w_bytes] in C.
      pose proof (from_as (header_for w) (header_valid w P)) as G.
      set (cs := fst (as_bits (header_for w))) in *. set (i := snd (as_bits (header_for w))) in *.
      assert (E2 : N.testbit cs 20 = false).
      { rewrite <- flag_testbit. change (flag cs 20) with (hd_rtr (from_bits cs i)). rewrite G. exact R. }
      assert (E3 : cs / 2 ^ 16 mod 16 = w_dlc w) by (rewrite <- (dlc_from cs i), G; reflexivity).
      rewrite E2, E3, B2, Nat2N.id, Nat.min_r in C by assumption.
      etransitivity; [|exact C]. unfold read_data. apply map_ext_in. intros j J. apply in_seq in J.
      rewrite L. destruct (Nat.ltb_spec j (Nat.min (length (w_bytes w)) 8)); [|lia]. rewrite shift_index_right. reflexivity. }
    rewrite V. unfold frame_new at 1. rewrite small_length by assumption.
    eexists; exists s'. split; [reflexivity|]. split; [|exact T].
    rewrite (eta w P), R, <- F, B2. apply MadeData; [|assumption].
    rewrite <- E. unfold frame_new. rewrite small_length by assumption. reflexivity.
Qed.

Lemma send_general fuel f w last c sch r s' : made f w -> holds last c -> send fuel f (c, sch) = (r, s') ->
  match r with
  | Returns WouldBlock => (exists l, last = Some l /\ ~ wins w l) /\ holds last (fst s')
  | Returns (Accepted None) => holds (Some w) (fst s')
  | Returns (Accepted (Some g)) => (exists l, last = Some l /\ wins w l /\ made g l) /\ holds (Some w) (fst s')
  | Panics => False
  | Waits => exists l, last = Some l /\ wins w l
  end.
Proof.
  intros M H E. destruct (made_right f w M) as (Hf & Pw & Dw).
  assert (ST : forall s, length (m_data (buf s)) = 8%nat -> holds (Some w) (fst (store f s))).
  { intros s L. destruct (store_right f w s M L) as [S1 S2]. split; [exact S2|]. intros _. exists w. auto. }
  unfold send in E. set (s1 := clear_flag (c, sch)) in *.
  assert (H1 : holds last (fst s1)) by (eapply holds_evolves; [exact H|apply (clear_flag_evolves (c, sch))]).
  destruct (read_header_right s1) as (cs & R & C). rewrite R in E. rewrite code_from in E.
  set (s2 := tick (tick s1)) in *.
  assert (T2 : evolves (buf s1) (buf s2)) by (eapply evolves_trans; apply tick_evolves).
  destruct (N.eqb_spec (code_of cs) CODE_TX_DATA) as [A|A].
  2: { injection E as <- <-. apply ST. destruct (evolves_data _ _ T2) as [_ ->]. apply H1. }
  destruct (C A) as [C1 C2]. destruct H1 as [L1 H1]. destruct (H1 C2) as (l & -> & Pl & Enc). change (c_buffer (fst s1)) with (buf s1) in Enc.
  assert (Hh : from_bits cs (m_id (buf s1)) = header_for l).
  { rewrite C1. destruct Enc as (-> & -> & _). apply from_as, header_valid, Pl. }
  rewrite Hh, Hf in E.
  pose proof (compare_right l w Pl Pw) as CR.
  destruct (compare_transmit_priority (header_for l) (header_for w)) eqn:CMP.
  - injection E as <- <-. split; [exists l; split; [reflexivity|]; rewrite <- CR; discriminate|].
    eapply holds_evolves; [split; [exact L1|exact H1]|exact T2].
  - assert (W : wins w l) by (apply CR; reflexivity).
    destruct (wait_for_outcome fuel (write_header abort_header s2)) as [s3|] eqn:WT.
    2: { injection E as <- <-. exists l. auto. }
    apply wait_evolves in WT. destruct (evolves_data _ _ WT) as [_ D3]. fold (buf s3) in D3. fold (buf (write_header abort_header s2)) in D3.
    rewrite write_header_right in D3. cbn [m_data] in D3. rewrite (proj2 (evolves_data _ _ T2)) in D3.
    destruct (read_header_right s3) as (cs' & R' & _). rewrite R' in E. rewrite code_from in E. set (s4 := tick (tick s3)) in *.
    assert (T4 : evolves (buf s3) (buf s4)) by (eapply evolves_trans; apply tick_evolves).
    assert (D4 : m_data (buf s4) = m_data (buf s1)) by (rewrite (proj2 (evolves_data _ _ T4)); exact D3).
    destruct (N.eqb_spec (code_of cs') CODE_TX_ABORT) as [A'|A'].
    + destruct (removed_right l s4 Pl) as (g & s5 & RR & Mg & T5).
      { rewrite D4. destruct Enc as (E1 & E2 & E3). rewrite <- E1, <- E2.
        etransitivity; [|exact E3]. destruct (buf s1); reflexivity. }
      { rewrite D4. exact L1. }
      rewrite RR in E. injection E as <- <-. split; [exists l; auto|]. apply ST.
      rewrite (proj2 (evolves_data _ _ (clear_flag_evolves s5))), (proj2 (evolves_data _ _ T5)), D4. exact L1.
    + injection E as <- <-. apply ST. rewrite (proj2 (evolves_data _ _ (clear_flag_evolves s4))), D4. exact L1.
  - injection E as <- <-. split; [exists l; split; [reflexivity|]; rewrite <- CR; discriminate|].
    eapply holds_evolves; [split; [exact L1|exact H1]|exact T2].
Qed.
Theorem sends_general fuel calls ws : Forall2 (fun call w => made (fst call) w) calls ws -> forall last c, holds last c ->
  allowed last ws (fst (sends fuel c calls)).
Proof.
  induction 1 as [|[f sch] w calls ws M _ IH]; intros last c H; cbn [sends fst] in *; [exact I|].
  destruct (send fuel f (c, sch)) as [r [c' sch'] ] eqn:E.
  pose proof (send_general fuel f w last c sch r (c', sch') M H E) as G. cbn [fst] in G.
  destruct r as [ [|[g|] ]| |].
  - destruct G as [G1 G2]. specialize (IH _ _ G2). destruct (sends fuel c' calls) as [rs c2]. cbn [fst allowed] in *. auto.
  - destruct G as [G1 G2]. specialize (IH _ _ G2). destruct (sends fuel c' calls) as [rs c2]. cbn [fst allowed] in *. auto.
  - specialize (IH _ _ G). destruct (sends fuel c' calls) as [rs c2]. cbn [fst allowed] in *. auto.
  - destruct G.
  - cbn [fst allowed]. auto.
Qed.

(** ** Histories without preemption *)
Definition idle (acc : list can_frame) (c : controller) : Prop :=
  code_of (m_cs (c_buffer c)) <> CODE_TX_DATA /\ c_flight c = None /\ transmitted c = acc.
Definition waiting (acc : list can_frame) (c : controller) : Prop :=
  exists w, proper w /\ encodes w (c_buffer c) /\ acc = transmitted c ++ [w] /\ (c_flight c = None \/ c_flight c = Some (c_buffer c)).
Definition settled (acc : list can_frame) (c : controller) : Prop :=
  c_abort c = false /\ length (m_data (c_buffer c)) = 8%nat /\ (idle acc c \/ waiting acc c).
Lemma act_idle acc c a : c_abort c = false -> idle acc c -> act c a = c.
Proof.
  intros A (C & F & _). unfold act. rewrite F. destruct a; try reflexivity.
  - destruct (N.eqb_spec (code_of (m_cs (c_buffer c))) CODE_TX_DATA); [contradiction|reflexivity].
  - rewrite A. reflexivity.
Qed.
Lemma acts_idle acc acts : forall c, c_abort c = false -> idle acc c -> fold_left act acts c = c.
Proof. induction acts as [|a acts IH]; intros c A H; [reflexivity|]. cbn [fold_left]. rewrite (act_idle acc) by assumption. auto. Qed.
Lemma tick_idle acc s : c_abort (fst s) = false -> idle acc (fst s) -> fst (tick s) = fst s.
Proof. intros A H. destruct s as [c [|b s] ]; unfold tick; cbn [fst snd] in *; [reflexivity|]. apply (acts_idle acc); assumption. Qed.
Lemma act_settled acc c a : settled acc c -> settled acc (act c a).
Proof.
  intros (A & L & [H|H]).
  - rewrite (act_idle acc) by assumption. split; [assumption|]. split; [assumption|]. left. exact H.
  - destruct H as (w & P & E & -> & F). pose proof (code_header w P) as K. pose proof E as (E1 & E2 & E3).
    assert (KEEP : settled (transmitted c ++ [w]) c).
    { split; [assumption|]. split; [assumption|]. right. exists w. auto. }
    unfold act. destruct a; destruct (c_flight c) as [m|] eqn:FL; try exact KEEP.
    + rewrite E1, K. cbn [N.eqb Pos.eqb]. rewrite N.eqb_refl. split; [assumption|]. split; [assumption|]. right. exists w. cbn. auto.
    + destruct F as [F|F]; [discriminate|]. injection F as ->. split; [reflexivity|]. split; [exact L|]. left.
      split; [cbn [c_buffer m_cs]; rewrite code_set by reflexivity; discriminate|]. split; [reflexivity|].
      unfold transmitted. cbn [c_sent]. rewrite map_app. cbn [map]. rewrite E3. reflexivity.
    + split; [assumption|]. split; [assumption|]. right. exists w. cbn. auto.
    + rewrite A. exact KEEP.
Qed.
Lemma tick_settled acc s : settled acc (fst s) -> settled acc (fst (tick s)).
Proof.
  destruct s as [c [|b s] ]; unfold tick; cbn [fst snd]; [auto|]. revert c. induction b as [|a b IH]; intros c H; [exact H|].
  cbn [fold_left]. apply IH, act_settled, H.
Qed.
Lemma write_cs_abort cs s : c_abort (fst (write_cs cs s)) = (code_of cs =? CODE_TX_ABORT). Proof. reflexivity. Qed.
Lemma store_settled acc f w s : made f w -> settled acc (fst s) -> idle acc (fst s) -> settled (acc ++ [w]) (fst (store f s)).
Proof.
  intros M (A & L & _) I. destruct (store_right f w s M L) as [S1 S2]. destruct (made_right f w M) as (H & P & _).
  assert (I1 : c_abort (fst (store_data (frame_data f) s)) = false /\ idle acc (fst (store_data (frame_data f) s))).
  { unfold store_data, idle, transmitted. cbn [fst c_abort c_buffer m_cs c_flight c_sent]. rewrite (tick_idle acc s A I). auto. }
  destruct I1 as [A1 I1].
  assert (I2 : c_abort (fst (write_id (snd (as_bits (header_of f))) (store_data (frame_data f) s))) = false /\
    idle acc (fst (write_id (snd (as_bits (header_of f))) (store_data (frame_data f) s)))).
  { unfold write_id, idle, transmitted. cbn [fst c_abort c_buffer m_cs c_flight c_sent]. rewrite (tick_idle acc _ A1 I1). auto. }
  destruct I2 as [A2 I2].
  split; [|split; [exact S2|right; exists w; split; [exact P|split; [exact S1|] ] ] ].
  - unfold store, write_header. rewrite write_cs_abort, H, code_header by assumption. reflexivity.
  - unfold store, write_header, write_cs, transmitted. cbn [fst c_sent c_flight c_buffer]. rewrite (tick_idle acc _ A2 I2).
    destruct I2 as (_ & F & T). unfold transmitted in T. rewrite T. split; [reflexivity|]. left. exact F.
Qed.
Lemma send_in_turn fuel f w acc c sch : made f w -> settled acc c -> (forall l, In l acc -> ~ wins w l) ->
  exists r s', send fuel f (c, sch) = (Returns r, s') /\
    ((r = WouldBlock /\ settled acc (fst s') /\ transmitted c <> acc) \/ (r = Accepted None /\ settled (acc ++ [w]) (fst s'))).
Proof.
  intros M S NW. destruct (made_right f w M) as (Hf & Pw & _).
  unfold send. set (s1 := clear_flag (c, sch)).
  assert (S1 : settled acc (fst s1)).
  { pose proof (tick_settled acc (c, sch) S) as T. unfold s1, clear_flag. destruct T as (A & L & T).
    split; [exact A|]. split; [exact L|]. exact T. }
  pose proof (tick_settled acc _ S1) as S2. pose proof (tick_settled acc _ S2) as S3.
  destruct (read_header s1) as [h s3] eqn:R. unfold read_header in R. injection R as R1 R2.
  assert (B : m_id (buf (tick (tick s1))) = m_id (buf (tick s1))) by (apply (evolves_data _ _ (tick_evolves (tick s1)))).
  unfold buf in B. rewrite B in R1. clear B.
  destruct S2 as (A2 & L2 & [I2|W2]).
  - (* nothing in the buffer *)
    replace (hd_code h) with (code_of (m_cs (c_buffer (fst (tick s1))))) by (rewrite <- R1, code_from; reflexivity).
    destruct (N.eqb_spec (code_of (m_cs (c_buffer (fst (tick s1))))) CODE_TX_DATA) as [C|C]; [destruct I2; contradiction|].
    eexists; eexists. split; [reflexivity|]. right. split; [reflexivity|]. rewrite <- R2. apply store_settled; [assumption|exact S3|].
    rewrite (tick_idle acc _ A2 I2). exact I2.
  - destruct W2 as (l & Pl & (E1 & E2 & E3) & EA & FL).
    assert (Hh : h = header_for l) by (rewrite <- R1, E1, E2; apply from_as, header_valid, Pl).
    rewrite Hh, Hf. cbn [header_for hd_code]. rewrite N.eqb_refl.
    assert (NL : ~ wins w l) by (apply NW; rewrite EA; apply in_or_app; right; left; reflexivity).
    rewrite <- (compare_right l w Pl Pw) in NL. exists WouldBlock, s3. split.
    { unfold header_for in *. destruct (compare_transmit_priority _ _); try reflexivity. exfalso. apply NL. reflexivity. }
    left. split; [reflexivity|]. split; [rewrite <- R2; exact S3|].
    intro T. destruct S as (A & L & [I|(l' & _ & _ & Q & _)]).
    + assert (U : fst (tick s1) = Controller (c_buffer c) false (c_flight c) (c_abort c) (c_sent c)).
      { unfold s1. unfold clear_flag. cbn [fst]. rewrite (tick_idle acc (c, sch) A I). apply (tick_idle acc); assumption. }
      rewrite U in E1. cbn [c_buffer] in E1. destruct I as (I & _). apply I. rewrite E1. apply code_header, Pl.
    + rewrite T in Q. apply (f_equal (@length can_frame)) in Q. rewrite app_length in Q. cbn in Q. lia.
Qed.
Lemma sends_in_turn fuel calls ws : Forall2 (fun call w => made (fst call) w) calls ws -> in_turn ws -> forall acc c,
  settled acc c -> (forall l w, In l acc -> In w ws -> ~ wins w l) ->
  length (fst (sends fuel c calls)) = length ws /\
  Forall (fun r => r = Returns WouldBlock \/ r = Returns (Accepted None)) (fst (sends fuel c calls)) /\
  settled (acc ++ accepted ws (fst (sends fuel c calls))) (snd (sends fuel c calls)).
Proof.
  induction 1 as [|[f sch] w calls ws M _ IH]; intros T acc c S NW; cbn [sends fst snd accepted length] in *.
  - rewrite app_nil_r. repeat split; auto; apply S.
  - inversion T as [|? ? T1 T2]; subst.
    destruct (send_in_turn fuel f w acc c sch M S) as (r & [c' sch'] & E & C); [intros l Hl; apply NW; [exact Hl|left; reflexivity]|].
    rewrite E. cbn [fst] in C. destruct C as [(-> & S' & _)|(-> & S')].
    + destruct (IH T2 acc c' S') as (I1 & I2 & I3); [intros l w' Hl Hw; apply NW; [exact Hl|right; exact Hw]|].
      destruct (sends fuel c' calls) as [rs c2]. cbn [fst snd length accepted] in *. split; [congruence|]. split; [|exact I3].
      constructor; [left; reflexivity|exact I2].
    + destruct (IH T2 (acc ++ [w]) c' S') as (I1 & I2 & I3).
      { intros l w' Hl Hw. apply in_app_or in Hl. destruct Hl as [Hl|[<-|[] ] ]; [apply NW; [exact Hl|right; exact Hw]|].
        rewrite Forall_forall in T1. apply T1, Hw. }
      destruct (sends fuel c' calls) as [rs c2]. cbn [fst snd length accepted] in *. rewrite <- app_assoc in I3. cbn [app] in I3.
      split; [congruence|]. split; [|exact I3]. constructor; [right; reflexivity|exact I2].
Qed.
Lemma fresh_settled : settled [] fresh.
Proof. split; [reflexivity|]. split; [reflexivity|]. left. split; [vm_compute; discriminate|]. split; reflexivity. Qed.
Lemma fresh_holds : holds None fresh.
Proof. split; [reflexivity|]. intro C. vm_compute in C. discriminate. Qed.

(** ** Preemption *)
Lemma act_flag c a : c_flag c = true -> c_flag (act c a) = true.
Proof.
  intro F. unfold act. destruct a, (c_flight c); try assumption; try reflexivity.
  - destruct (_ =? _); assumption.
  - destruct (c_abort c); [reflexivity|assumption].
Qed.
Lemma tick_flag s : c_flag (fst s) = true -> c_flag (fst (tick s)) = true.
Proof.
  destruct s as [c [|b s] ]; unfold tick; cbn [fst snd]; [auto|]. revert c. induction b as [|a b IH]; intros c H; [exact H|].
  cbn [fold_left]. apply IH, act_flag, H.
Qed.
Lemma wait_stuck fuel : forall s, c_flag (fst s) = true -> wait_for_outcome fuel s = None.
Proof.
  induction fuel as [|fuel IH]; intros s F; [reflexivity|]. cbn [wait_for_outcome]. unfold read_flag.
  pose proof (tick_flag s F) as T. rewrite T. apply IH, T.
Qed.
Lemma send_fresh fuel f w : made f w ->
  exists b, send fuel f (fresh, []) = (Returns (Accepted None), (Controller b false None false [], [])) /\ encodes w b /\ length (m_data b) = 8%nat.
Proof.
  intro M. destruct (store_right f w (fresh, []) M eq_refl) as [E L]. exists (buf (store f (fresh, []))). split; [|split; assumption].
  destruct (made_right f w M) as (H & P & _).
  unfold send. change (clear_flag (fresh, [])) with (fresh, @nil (list action)).
  change (read_header (fresh, [])) with (from_bits 0 0, (fresh, @nil (list action))). cbv beta iota. rewrite code_from.
  change (code_of 0 =? CODE_TX_DATA) with false. cbn iota. f_equal.
  unfold store, write_header, write_cs, write_id, store_data, tick, buf. cbn [fst snd c_buffer m_cs m_id m_data c_flag c_flight c_sent c_abort fresh].
  rewrite H, code_header by assumption. reflexivity.
Qed.
Lemma abort_code : code_of (fst (as_bits abort_header)) = CODE_TX_ABORT. Proof. reflexivity. Qed.
Lemma hang fuel rest lo hi wlo whi b : made lo wlo -> made hi whi -> wins whi wlo -> encodes wlo b ->
  fst (send fuel hi (Controller b false None false [], [ []; []; []; []; []; [Settle] ] ++ rest)) = Waits.
Proof.
  intros Ml Mh W (E1 & E2 & _). destruct (made_right _ _ Ml) as (_ & Pl & _). destruct (made_right _ _ Mh) as (Hh & Ph & _).
  unfold send, clear_flag, read_header, tick. cbn [fst snd app fold_left c_buffer c_flag c_flight c_abort c_sent].
  rewrite E1, E2, from_as by (apply header_valid; assumption). rewrite Hh.
  change (hd_code (header_for wlo) =? CODE_TX_DATA) with true. cbn iota.
  rewrite (proj2 (compare_right wlo whi Pl Ph) W).
  unfold write_header, write_cs, write_id, tick. cbn [fst snd app fold_left c_buffer c_flag c_flight c_abort c_sent].
  rewrite abort_code. change (CODE_TX_ABORT =? CODE_TX_ABORT) with true.
  destruct fuel as [|fuel]; [reflexivity|]. cbn [wait_for_outcome]. unfold read_flag at 1, tick. cbn [fst snd fold_left act c_flight c_abort c_flag].
  rewrite wait_stuck by reflexivity. reflexivity.
Qed.
Lemma duplicate fuel lo hi wlo whi b : made lo wlo -> made hi whi -> wins whi wlo -> encodes wlo b -> length (m_data b) = 8%nat ->
  exists g b', send (S fuel) hi (Controller b false None false [], [ [Start] ]) =
    (Returns (Accepted (Some g)), (Controller b' false (Some b) false [], [])) /\ made g wlo /\ encodes whi b'.
Proof.
  intros Ml Mh W Enc L. pose proof Enc as (E1 & E2 & E3).
  destruct (made_right _ _ Ml) as (_ & Pl & _). destruct (made_right _ _ Mh) as (Hh & Ph & _).
  set (s := (Controller (Message (fst (as_bits abort_header)) (snd (as_bits abort_header)) (m_data b)) false (Some b) true [], @nil (list action))).
  destruct (removed_right wlo s Pl) as (g & s' & R & Mg & T).
  { unfold s, buf. cbn [fst c_buffer m_data]. etransitivity; [|exact E3]. rewrite <- E1, <- E2. destruct b; reflexivity. }
  { exact L. }
  assert (S' : s' = s).
  { unfold removed_frame in R. destruct (hd_rtr (header_for wlo)); [injection R as _ <-; reflexivity|].
    destruct (8 <? _)%nat; [discriminate|]. unfold load_data in R. injection R as _ <-. reflexivity. }
  subst s'. exists g. exists (buf (store hi (clear_flag s))).
  set (c1 := Controller b false (Some b) false []).
  assert (C1 : clear_flag (Controller b false None false [], [ [Start] ]) = (c1, [])).
  { unfold clear_flag, tick. cbn [fst snd fold_left act c_flight c_buffer]. rewrite E1, (code_header wlo Pl). reflexivity. }
  assert (R1 : read_header (c1, []) = (header_for wlo, (c1, []))).
  { unfold read_header, tick, c1. cbn [fst snd c_buffer]. rewrite E1, E2, from_as by (apply header_valid; assumption). reflexivity. }
  assert (W1 : write_header abort_header (c1, []) = s) by reflexivity.
  assert (F1 : wait_for_outcome (S fuel) s = Some s) by reflexivity.
  assert (R2 : exists h, read_header s = (h, s) /\ hd_code h = CODE_TX_ABORT).
  { eexists. split; [reflexivity|]. rewrite code_from. reflexivity. }
  destruct R2 as (h & R2 & R3).
  destruct (store_right hi whi (clear_flag s) Mh L) as [EN _]. split; [|split; [exact Mg|exact EN] ].
  unfold send. rewrite C1, R1. change (hd_code (header_for wlo) =? CODE_TX_DATA) with true. cbv iota.
  rewrite Hh, (proj2 (compare_right wlo whi Pl Ph) W), W1, F1, R2, R3.
  change (CODE_TX_ABORT =? CODE_TX_ABORT) with true. cbv iota. rewrite R. f_equal.
  unfold s. unfold store, clear_flag, write_header, write_cs, write_id, store_data, tick, buf.
  cbn [fst snd c_buffer m_cs m_id m_data c_flag c_flight c_sent c_abort]. rewrite Hh, code_header by assumption. reflexivity.
Qed.
Lemma never_more c more : c_abort c = false -> code_of (m_cs (c_buffer c)) <> CODE_TX_DATA -> c_flight c = None ->
  transmitted (fold_left act more c) = transmitted c.
Proof. intros A C F. rewrite (acts_idle (transmitted c)); [reflexivity|assumption|]. split; [assumption|]. split; [assumption|reflexivity]. Qed.

(** ** Frames that are too long *)
Lemma long_right fuel bits data f : frame_new (id_extended bits) data = Some f -> (8 < length data)%nat ->
  exists c w, send fuel f (fresh, []) = (Returns (Accepted None), (c, [])) /\
    transmitted (fold_left act [Start; Success] c) = [w] /\ w_bytes w = firstn 8 data.
Proof.
  intros E L. pose proof (frame_new_data _ _ _ E) as D. unfold frame_new in E.
  destruct (dlc_from_length (length data)) as [dlc|] eqn:F; [|discriminate]. apply from_length_length in F.
  destruct F as (F1 & F2 & F3 & _). destruct (id_extended_right bits) as [I1 I2].
  assert (X : fr_id f = id_extended bits /\ fr_dlc f = dlc /\ fr_remote f = false) by (inversion E; auto). destruct X as (X1 & X2 & X3).
  assert (V : valid (header_of f)).
  { unfold valid, header_of. cbn [hd_timestamp hd_dlc hd_code hd_priority hd_ide hd_id]. rewrite X1, X2, I1, I2.
    repeat split; try assumption; lia. }
  pose proof (from_as _ V) as FA.
  set (cs := fst (as_bits (header_of f))) in *. set (i := snd (as_bits (header_of f))) in *.
  assert (C : code_of cs = CODE_TX_DATA) by (rewrite <- (code_from cs i), FA; reflexivity).
  set (b := Message cs i (write_data data (repeat 0 8))).
  assert (S : send fuel f (fresh, []) = (Returns (Accepted None), (Controller b false None false [], []))).
  { unfold send. change (clear_flag (fresh, [])) with (fresh, @nil (list action)).
    change (read_header (fresh, [])) with (from_bits 0 0, (fresh, @nil (list action))). cbv beta iota. rewrite code_from.
    change (code_of 0 =? CODE_TX_DATA) with false. cbn iota. f_equal.
    unfold store, write_header, write_cs, write_id, store_data, tick. cbn [fst snd c_buffer m_cs m_id m_data c_flag c_flight c_sent c_abort fresh].
    fold cs i. rewrite C, D. reflexivity. }
  exists (Controller b false None false []), (carried b). split; [exact S|]. split.
  - cbn [fold_left act c_flight c_buffer m_cs b]. unfold b at 1. cbn [m_cs]. rewrite C. reflexivity.
  - unfold carried, b. cbn [m_cs m_id m_data w_bytes].
    assert (E2 : N.testbit cs 20 = false).
    { rewrite <- flag_testbit. change (flag cs 20) with (hd_rtr (from_bits cs i)). rewrite FA. exact X3. }
    assert (E3 : cs / 2 ^ 16 mod 16 = dlc) by (rewrite <- (dlc_from cs i), FA; exact X2).
    rewrite E2, E3.
    assert (G : (8 <= N.to_nat dlc)%nat).
    { destruct (N.lt_ge_cases dlc 8) as [H|H]; [|lia]. exfalso.
      assert (K : dlc = 0 \/ dlc = 1 \/ dlc = 2 \/ dlc = 3 \/ dlc = 4 \/ dlc = 5 \/ dlc = 6 \/ dlc = 7) by lia.
      clear - K F2 L. decompose [or] K; subst dlc; cbn in F2; lia. }
    rewrite Nat.min_l by exact G.
    replace (firstn 8 data) with (map (fun j => nth j data 0) (seq 0 8)).
    + apply map_ext_in. intros j J. apply in_seq in J. rewrite <- shift_index_right. apply write_data_nth; [reflexivity|lia|].
      rewrite repeat_length. lia.
    + do 8 (destruct data as [|? data]; [cbn in L; lia|]). reflexivity.
Qed.
