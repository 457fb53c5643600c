(** Proofs about receiving, the memory of message buffers, and the bit timing of the FlexCAN driver *)
From Verif Require Import Base FlexModel FlexSpec FlexProofs FlexRxModel FlexRxSpec.
Ltac Zify.zify_post_hook ::= Z.div_mod_to_equations.

Local Opaque N.pow.

(** ** Receiving *)
Lemma fifo_header_right m : let h := fifo_read_header (m_cs m) (m_id m) in
  fh_id h = (if w_extended (carried m) then id_extended (w_ident (carried m)) else id_standard (w_ident (carried m))) /\
  fh_remote h = w_remote (carried m) /\ fh_dlc h = w_dlc (carried m).
Proof.
  unfold fifo_read_header, carried. cbn [fh_id fh_remote fh_dlc w_extended w_ident w_remote w_dlc]. rewrite !flag_testbit, land15, !N.shiftr_div_pow2.
  split; [|split]; [|reflexivity|reflexivity]. destruct (N.testbit (m_cs m) 21).
  - rewrite land29. reflexivity.
  - unfold id_standard. rewrite !land11. change 65536 with (2 ^ 5 * 2 ^ 11).
    rewrite (N.mul_comm (2 ^ 5)). rewrite N.mod_mul_r by (apply N.pow_nonzero; discriminate).
    rewrite (N.mul_comm (2 ^ 11)), N.mod_add by (apply N.pow_nonzero; discriminate). reflexivity.
Qed.
Lemma carried_ident m : w_ident (carried m) < 2 ^ (if w_extended (carried m) then 29 else 11).
Proof.
  unfold carried. cbn [w_ident w_extended]. destruct (N.testbit (m_cs m) 21); apply N.mod_lt, N.pow_nonzero; discriminate.
Qed.
Lemma dlc_small d : d <= 8 -> dlc_length d = N.to_nat d.
Proof.
  intro H. assert (C : d = 0 \/ d = 1 \/ d = 2 \/ d = 3 \/ d = 4 \/ d = 5 \/ d = 6 \/ d = 7 \/ d = 8) by lia.
  repeat (destruct C as [->|C]; [reflexivity|]). subst. reflexivity.
Qed.
Lemma dlc_large d : d < 16 -> 8 < d -> (8 < dlc_length d)%nat.
Proof.
  intros H1 H2. assert (C : d = 9 \/ d = 10 \/ d = 11 \/ d = 12 \/ d = 13 \/ d = 14 \/ d = 15) by lia.
  repeat (destruct C as [->|C]; [cbn; lia|]). subst. cbn. lia.
Qed.
Lemma carried_dlc m : w_dlc (carried m) < 16.
Proof. unfold carried. cbn [w_dlc]. apply N.mod_lt. discriminate. Qed.
Lemma carried_remote m : w_remote (carried m) = true -> w_bytes (carried m) = [].
Proof. unfold carried. cbn [w_remote w_bytes]. intros ->. reflexivity. Qed.
Lemma carried_bytes m : plain (carried m) -> w_remote (carried m) = false ->
  w_bytes (carried m) = fifo_read_data (dlc_length (w_dlc (carried m))) (m_data m) /\ length (w_bytes (carried m)) = N.to_nat (w_dlc (carried m)).
Proof.
  unfold plain, carried. cbn [w_dlc w_remote w_bytes]. intros H ->. set (d := m_cs m / 2 ^ 16 mod 16) in *. rewrite (dlc_small d H). unfold fifo_read_data.
  replace (Nat.min 8 (N.to_nat d)) with (N.to_nat d) by lia. split.
  - apply map_ext_in. intros i Hi. apply in_seq in Hi. destruct (Nat.ltb_spec i (Nat.min (N.to_nat d) 8)) as [L|L]; [|lia]. now rewrite shift_index_right.
  - now rewrite map_length, seq_length.
Qed.
Lemma receive_plain m rest : plain (carried m) -> exists f, receive (m :: rest) = (Returns (Some f), rest) /\ made f (carried m) /\
  fr_id f = (if w_extended (carried m) then id_extended (w_ident (carried m)) else id_standard (w_ident (carried m))) /\
  frame_data f = (if w_remote (carried m) then repeat 0 (N.to_nat (w_dlc (carried m))) else w_bytes (carried m)).
Proof.
  intro P. cbn [receive]. destruct (fifo_header_right m) as (E1 & E2 & E3). cbn zeta in *. rewrite E1, E2, E3. clear E1 E2 E3.
  pose proof P as P'. unfold plain in P'. rewrite (dlc_small _ P'). destruct (Nat.ltb_spec 8 (N.to_nat (w_dlc (carried m)))) as [L|L]; [lia|]. clear L.
  pose proof (carried_ident m) as B. pose proof (N.mod_small _ _ B) as M.
  destruct (w_remote (carried m)) eqn:R.
  - unfold frame_new_remote, dlc_from_u8. destruct (N.ltb_spec (w_dlc (carried m)) 16) as [L|L]; [|lia].
    eexists. split; [reflexivity|]. split; [|split; [reflexivity|] ].
    + assert (W : carried m = CanFrame (w_extended (carried m)) (w_ident (carried m) mod 2 ^ (if w_extended (carried m) then 29 else 11)) true (w_dlc (carried m)) []).
      { rewrite M, <- R, <- (carried_remote m R). now destruct (carried m). }
      refine (eq_ind_r (fun w => made _ w) _ W). apply MadeRemote. unfold frame_new_remote, dlc_from_u8. destruct (N.ltb_spec (w_dlc (carried m)) 16) as [L2|L2]; [reflexivity|lia].
    + unfold frame_data. cbn [fr_dlc fr_data]. rewrite (dlc_small _ P'). replace 64%nat with (N.to_nat (w_dlc (carried m)) + (64 - N.to_nat (w_dlc (carried m))))%nat by lia.
      rewrite repeat_app, firstn_app, repeat_length, Nat.sub_diag, firstn_O, app_nil_r. apply firstn_all2. rewrite repeat_length. lia.
  - destruct (carried_bytes m P R) as (D & Le). rewrite (dlc_small _ P') in D. rewrite <- D.
    assert (F : exists f, frame_new (if w_extended (carried m) then id_extended (w_ident (carried m)) else id_standard (w_ident (carried m))) (w_bytes (carried m)) = Some f /\ fr_id f = (if w_extended (carried m) then id_extended (w_ident (carried m)) else id_standard (w_ident (carried m)))).
    { unfold frame_new. rewrite small_length by lia. eexists. split; reflexivity. }
    destruct F as (f & F & I). rewrite F. exists f. split; [reflexivity|]. split; [|split; [exact I|exact (frame_new_data _ _ _ F)] ].
    assert (W : carried m = CanFrame (w_extended (carried m)) (w_ident (carried m) mod 2 ^ (if w_extended (carried m) then 29 else 11)) false (N.of_nat (length (w_bytes (carried m)))) (w_bytes (carried m))).
    { rewrite M, <- R, Le, N2Nat.id. now destruct (carried m). }
    refine (eq_ind_r (fun w => made _ w) _ W). apply MadeData; [exact F|lia].
Qed.
Lemma receive_long m rest : 8 < w_dlc (carried m) -> receive (m :: rest) = (Panics, m :: rest).
Proof.
  intro H. cbn [receive]. destruct (fifo_header_right m) as (_ & _ & E3). cbn zeta in *. rewrite E3.
  pose proof (dlc_large _ (carried_dlc m) H) as L. apply Nat.ltb_lt in L. now rewrite L.
Qed.
Lemma receives_general es : Forall plain (arrived es) -> forall fifo, Forall plain (map carried fifo) ->
  queue (map carried fifo) es (fst (receives fifo es)) (map carried (snd (receives fifo es))).
Proof.
  induction es as [|[m|] es IH]; cbn [arrived]; intros A fifo F; cbn [receives].
  - apply QEnd.
  - inversion A; subst. apply QArrives. assert (E : map carried fifo ++ [carried m] = map carried (fifo ++ [m])) by now rewrite map_app.
    rewrite E. apply IH; [assumption|]. rewrite map_app. apply Forall_app. split; [assumption|]. now constructor.
  - destruct fifo as [|m fifo].
    + cbn [receive]. specialize (IH A [] (Forall_nil _)). destruct (receives [] es) as [rs left]. now apply QNone.
    + cbn [map] in F. inversion F; subst. destruct (receive_plain m fifo) as (f & E & M & _); [assumption|]. rewrite E.
      specialize (IH A fifo H2). destruct (receives fifo es) as [rs left]. cbn [map fst snd] in *. now apply QSome.
Qed.
Lemma driver_plain m rest : plain (carried m) -> driver_receive (m :: rest) =
  (Returns (if w_extended (carried m)
            then Some (w_ident (carried m), if w_remote (carried m) then repeat 0 (N.to_nat (w_dlc (carried m))) else w_bytes (carried m)) else None), rest).
Proof.
  intro P. unfold driver_receive. destruct (receive_plain m rest P) as (f & E & _ & I & D). rewrite E, I, D. pose proof (carried_ident m) as B.
  destruct (w_extended (carried m)).
  - destruct (id_extended_right (w_ident (carried m))) as (-> & ->). cbn [negb]. rewrite (N.mod_small _ _ B). apply N.ltb_lt in B. now rewrite B.
  - destruct (id_standard_right (w_ident (carried m))) as (-> & _). reflexivity.
Qed.
Lemma driver_receives_general es : Forall (fun w => plain w /\ (w_extended w = true -> w_remote w = false)) (arrived es) ->
  forall fifo, Forall (fun w => plain w /\ (w_extended w = true -> w_remote w = false)) (map carried fifo) ->
  node_queue (map carried fifo) es (fst (driver_receives fifo es)) (map carried (snd (driver_receives fifo es))).
Proof.
  induction es as [|[m|] es IH]; cbn [arrived]; intros A fifo F; cbn [driver_receives].
  - apply NEnd.
  - inversion A; subst. apply NArrives. assert (E : map carried fifo ++ [carried m] = map carried (fifo ++ [m])) by now rewrite map_app.
    rewrite E. apply IH; [assumption|]. rewrite map_app. apply Forall_app. split; [assumption|]. now constructor.
  - destruct fifo as [|m fifo].
    + change (driver_receive []) with (@Returns (option (N * list N)) None, @nil message). cbv beta iota. specialize (IH A [] (Forall_nil _)). destruct (driver_receives [] es) as [rs left]. now apply NNone.
    + cbn [map] in F. inversion F as [|? ? [P R] F2]; subst. rewrite (driver_plain m fifo P).
      specialize (IH A fifo F2). destruct (driver_receives fifo es) as [rs left]. cbn [map fst snd] in *.
      destruct (w_extended (carried m)) eqn:X; [rewrite (R eq_refl); apply NSome; auto|now apply NIgnored].
Qed.
Lemma queue_once waiting es rs left : queue waiting es rs left -> exists ws, Forall2 made (returned rs) ws /\ waiting ++ arrived es = ws ++ left.
Proof.
  induction 1 as [waiting|waiting m es rs left Q (ws & F & E)|es rs left Q (ws & F & E)|w waiting f es rs left M Q (ws & F & E)]; cbn [arrived returned].
  - exists []. rewrite app_nil_r. auto.
  - exists ws. split; [exact F|]. rewrite <- E, <- app_assoc. reflexivity.
  - exists ws. auto.
  - exists (w :: ws). split; [now constructor|]. cbn. now rewrite E.
Qed.

(** ** Memory *)
Lemma capacity_right b : capacity_per_block b = (block_bytes / buffer_bytes b)%nat.
Proof. destruct b; reflexivity. Qed.
Lemma size_divides b : exists k, buffer_bytes b = (4 * k)%nat /\ (0 < k)%nat.
Proof. destruct b; [exists 4%nat|exists 6%nat|exists 10%nat|exists 18%nat]; split; (reflexivity || lia). Qed.
Lemma space_right b i : message_buffer_space i (buffer_bytes b) =
  (128 + 512 * (i / capacity_per_block b) + buffer_bytes b * (i mod capacity_per_block b),
   128 + 512 * (i / capacity_per_block b) + buffer_bytes b * (i mod capacity_per_block b) + buffer_bytes b)%nat.
Proof. unfold message_buffer_space. rewrite <- capacity_right. reflexivity. Qed.
Lemma fits b : (buffer_bytes b * capacity_per_block b <= 512 /\ 512 < buffer_bytes b * (capacity_per_block b + 1) /\ 0 < capacity_per_block b)%nat.
Proof. destruct b; cbn [buffer_bytes capacity_per_block]; lia. Qed.
Lemma space_block b i : inside (message_buffer_space i (buffer_bytes b)) (block_range (i / capacity_per_block b)).
Proof.
  rewrite space_right. destruct (fits b) as (F1 & F2 & F3). unfold inside, block_range. cbn [fst snd].
  assert (M : (i mod capacity_per_block b < capacity_per_block b)%nat) by (apply Nat.mod_upper_bound; lia).
  assert (X : (buffer_bytes b * (i mod capacity_per_block b) + buffer_bytes b <= buffer_bytes b * capacity_per_block b)%nat).
  { replace (buffer_bytes b * (i mod capacity_per_block b) + buffer_bytes b)%nat with (buffer_bytes b * S (i mod capacity_per_block b))%nat by lia.
    apply Nat.mul_le_mono_l. lia. }
  lia.
Qed.
Lemma space_apart b i j : i <> j -> apart (message_buffer_space i (buffer_bytes b)) (message_buffer_space j (buffer_bytes b)).
Proof.
  intro D. pose proof (space_block b i) as Bi. pose proof (space_block b j) as Bj. unfold inside, block_range in *. cbn [fst snd] in Bi, Bj. unfold apart.
  destruct (Nat.lt_trichotomy (i / capacity_per_block b) (j / capacity_per_block b)) as [L|[E|L] ]; [lia| |lia].
  clear Bi Bj. rewrite !space_right. cbn [fst snd]. rewrite E. destruct (fits b) as (_ & _ & F3).
  pose proof (Nat.div_mod i (capacity_per_block b) ltac:(lia)) as Di. pose proof (Nat.div_mod j (capacity_per_block b) ltac:(lia)) as Dj. rewrite E in Di.
  destruct (Nat.lt_trichotomy (i mod capacity_per_block b) (j mod capacity_per_block b)) as [L|[E2|L] ]; [left| |right].
  - pose proof (Nat.mul_le_mono_l _ _ (buffer_bytes b) L). lia.
  - rewrite E2 in Di. congruence.
  - pose proof (Nat.mul_le_mono_l _ _ (buffer_bytes b) L). lia.
Qed.
Lemma space_size b i : (snd (message_buffer_space i (buffer_bytes b)) = fst (message_buffer_space i (buffer_bytes b)) + (8 + data_bytes b))%nat.
Proof. unfold message_buffer_space. cbn [fst snd]. destruct b; reflexivity. Qed.
Lemma space_aligned b i : (fst (message_buffer_space i (buffer_bytes b)) mod 8 = 0)%nat.
Proof.
  rewrite space_right. cbn [fst]. assert (E : exists k, buffer_bytes b = (8 * k)%nat) by (destruct b; [exists 2%nat|exists 3%nat|exists 5%nat|exists 9%nat]; reflexivity).
  destruct E as (k & ->). replace (128 + 512 * (i / capacity_per_block b) + 8 * k * (i mod capacity_per_block b))%nat with
    ((16 + 64 * (i / capacity_per_block b) + k * (i mod capacity_per_block b)) * 8)%nat by lia. apply Nat.mod_mul. lia.
Qed.
Lemma block_message_right b n i : (i < capacity_per_block b)%nat -> block_message n i b = fst (message_buffer_space (n * capacity_per_block b + i) (buffer_bytes b)).
Proof.
  intro L. rewrite space_right. cbn [fst]. rewrite (Nat.add_comm (n * _) i), Nat.div_add, Nat.mod_add, Nat.div_small, Nat.mod_small by lia. reflexivity.
Qed.
Lemma total_repeat b n : (n <= 4)%nat -> total_messages (Blocks (repeat b n)) = (n * capacity_per_block b)%nat.
Proof.
  intro H. unfold total_messages, messages_per_buffer. assert (C : n = 0%nat \/ n = 1%nat \/ n = 2%nat \/ n = 3%nat \/ n = 4%nat) by lia.
  destruct C as [->|[->|[->|[->| ->] ] ] ]; cbn [repeat map app firstn fold_right]; lia.
Qed.
Lemma total_general l : (length l <= 4)%nat -> total_messages (Blocks l) = fold_right Nat.add 0%nat (map (fun b => 512 / (8 + data_bytes b)) l)%nat.
Proof.
  intro H. assert (E : map (fun b => 512 / (8 + data_bytes b))%nat l = map capacity_per_block l) by (apply map_ext; intros []; reflexivity). rewrite E.
  unfold total_messages, messages_per_buffer. destruct l as [|a [|b [|c [|d [|e l] ] ] ] ]; cbn [map app firstn fold_right]; try lia. cbn [length] in H. lia.
Qed.
Lemma space_inside b n i : (n <= 4)%nat -> (i < total_messages (Blocks (repeat b n)))%nat ->
  inside (message_buffer_space i (buffer_bytes b)) (whole (memory_bytes (Blocks (repeat b n)))).
Proof.
  intros H L. rewrite total_repeat in L by exact H. pose proof (space_block b i) as B. destruct (fits b) as (_ & _ & F3).
  assert (Q : (i / capacity_per_block b < n)%nat) by (apply Nat.div_lt_upper_bound; lia).
  unfold inside, block_range, whole, memory_bytes, block_bytes in *. cbn [fst snd] in *. rewrite repeat_length. revert B Q. generalize (i / capacity_per_block b)%nat. intros; lia.
Qed.
Lemma half_inside b i : (i < total_messages (HalfBlock b))%nat <->
  inside (message_buffer_space i (buffer_bytes b)) (whole (memory_bytes (HalfBlock b))).
Proof.
  assert (T : total_messages (HalfBlock b) = (capacity_per_block b / 2)%nat) by (unfold total_messages, messages_per_buffer, capacity_per_half_block; cbn [fold_right]; lia).
  rewrite T. unfold whole, memory_bytes, inside. cbn [fst snd]. change (block_bytes / 2)%nat with 256%nat.
  destruct (Nat.lt_ge_cases i (capacity_per_block b)) as [L|L].
  - rewrite space_right. cbn [fst snd]. rewrite (Nat.div_small i), (Nat.mod_small i) by exact L. destruct b; cbn [capacity_per_block buffer_bytes] in *; lia.
  - split; intro H.
    + exfalso. destruct b; cbn [capacity_per_block] in H, L; lia.
    + exfalso. pose proof (space_block b i) as B. unfold inside, block_range in B. cbn [fst snd] in B. destruct (fits b) as (_ & _ & F3).
      assert (Q : (1 <= i / capacity_per_block b)%nat) by (apply Nat.div_le_lower_bound; lia). pose proof (space_size b i) as Z. revert B Q H Z. generalize (i / capacity_per_block b)%nat. intros; lia.
Qed.
Lemma fifo_overlap filters i : apart (legacy_fifo_space filters) (message_buffer_space i (buffer_bytes Bytes8)) <-> (6 + (filters + 3) / 4 <= i)%nat.
Proof.
  rewrite space_right. unfold apart, legacy_fifo_space, buffer_start, fifo_fixed. cbn [fst snd buffer_bytes capacity_per_block].
  pose proof (Nat.div_mod i 32 ltac:(lia)) as D. lia.
Qed.

(** ** Bit timing *)
Lemma set_field_bit w o n v i : N.testbit (set_field w o n v) i = if (o <=? i) && (i <? o + n) then N.testbit v (i - o) else N.testbit w i.
Proof.
  unfold set_field. rewrite N.lor_spec, N.ldiff_spec.
  destruct (N.leb_spec o i) as [L|L]; cbn [andb].
  - rewrite !N.shiftl_spec_high' by exact L. rewrite N.land_spec. destruct (N.ltb_spec i (o + n)) as [B|B].
    + rewrite N.ones_spec_low by lia. cbn. now rewrite andb_false_r, andb_true_r.
    + rewrite N.ones_spec_high by lia. cbn. now rewrite andb_true_r, andb_false_r, orb_false_r.
  - rewrite !N.shiftl_spec_low by exact L. cbn. now rewrite andb_true_r, orb_false_r.
Qed.
Lemma field_testbit w o n i : N.testbit (field w o n) i = (i <? n) && N.testbit w (i + o).
Proof.
  unfold field. rewrite <- N.shiftr_div_pow2. destruct (N.ltb_spec i n) as [L|L]; cbn [andb].
  - rewrite N.mod_pow2_bits_low by exact L. now rewrite N.shiftr_spec'.
  - now rewrite N.mod_pow2_bits_high by exact L.
Qed.
Lemma field_same w o n v : field (set_field w o n v) o n = v mod 2 ^ n.
Proof.
  apply N.bits_inj. intro i. rewrite field_testbit. destruct (N.ltb_spec i n) as [L|L]; cbn [andb].
  - rewrite set_field_bit, N.mod_pow2_bits_low by exact L. destruct (N.leb_spec o (i + o)); [|lia]. destruct (N.ltb_spec (i + o) (o + n)); [|lia]. cbn. f_equal. lia.
  - now rewrite N.mod_pow2_bits_high by exact L.
Qed.
Lemma field_other w o n v o' n' : o' + n' <= o \/ o + n <= o' -> field (set_field w o n v) o' n' = field w o' n'.
Proof.
  intro H. apply N.bits_inj. intro i. rewrite !field_testbit. destruct (N.ltb_spec i n') as [L|L]; cbn [andb]; [|reflexivity].
  rewrite set_field_bit. destruct (N.leb_spec o (i + o')); destruct (N.ltb_spec (i + o') (o + n)); cbn [andb]; try reflexivity. lia.
Qed.
Lemma set_timing_fields w t : 1 <= t_prescaler t <= 255 ->
  field (set_timing w t) 24 8 = t_prescaler t - 1 /\ field (set_timing w t) 22 2 = jump_bits (t_jump t) /\
  field (set_timing w t) 19 3 = segment_bits (t_phase_1 t) /\ field (set_timing w t) 16 3 = segment2_bits (t_phase_2 t) /\
  field (set_timing w t) 0 3 = segment_bits (t_propagation t).
Proof.
  intro P. unfold set_timing.
  assert (J : jump_bits (t_jump t) < 2 ^ 2) by (destruct (t_jump t); reflexivity).
  assert (S1 : segment_bits (t_phase_1 t) < 2 ^ 3) by (destruct (t_phase_1 t); reflexivity).
  assert (S2 : segment2_bits (t_phase_2 t) < 2 ^ 3) by (destruct (t_phase_2 t); reflexivity).
  assert (S3 : segment_bits (t_propagation t) < 2 ^ 3) by (destruct (t_propagation t); reflexivity).
  assert (P2 : t_prescaler t - 1 < 2 ^ 8) by (change (2 ^ 8) with 256; lia).
  split; [|split; [|split; [|split] ] ]; repeat (rewrite field_other by lia); rewrite field_same; apply N.mod_small; assumption.
Qed.
Lemma set_timing_other w t i : 3 <= i < 16 -> N.testbit (set_timing w t) i = N.testbit w i.
Proof.
  intro H. unfold set_timing. rewrite !set_field_bit.
  repeat match goal with |- context [?a <=? i] => destruct (N.leb_spec a i) | |- context [i <? ?a] => destruct (N.ltb_spec i a) end; cbn [andb]; try reflexivity; lia.
Qed.
