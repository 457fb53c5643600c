(** Proofs about the UDP transmitter and addresses. *)
From Verif Require Import Base BitLemmas CrcModel CrcProofs CoreModel HeaderModel HeaderSpec HeaderProofs UdpModel UdpSpec.
Ltac Zify.zify_post_hook ::= Z.div_mod_to_equations.

(** ** Addresses *)

Lemma lor_disj_add a b k : a mod 2 ^ k = 0 -> b < 2 ^ k -> N.lor a b = a + b.
Proof.
  intros Ha Hb. assert (E : a = N.shiftl (a / 2 ^ k) k).
  { rewrite N.shiftl_mul_pow2. pose proof (N.div_mod a (2 ^ k) ltac:(apply N.pow_nonzero; lia)). lia. }
  assert (Hd : N.land a b = 0).
  { apply N.bits_inj. intro i. rewrite N.land_spec, N.bits_0. destruct (N.ltb_spec i k) as [H|H].
    - rewrite E, N.shiftl_spec_low by assumption. reflexivity.
    - rewrite <- (N.mod_small b (2 ^ k)) by assumption. rewrite N.mod_pow2_bits_high by assumption. apply andb_false_r. }
  rewrite <- N.lxor_lor by assumption. symmetry. apply N.add_nocarry_lxor. assumption.
Qed.

Lemma ip_node n : n < 65536 -> ip_of_address (ANode n) = 239 * 2 ^ 24 + 65536 + n.
Proof. intro H. cbn [ip_of_address]. rewrite (lor_disj_add _ n 16); [reflexivity|reflexivity|exact H]. Qed.
Lemma ip_subject s : s < 65536 -> ip_of_address (AMulticast s) = 239 * 2 ^ 24 + s.
Proof. intro H. cbn [ip_of_address]. rewrite (lor_disj_add _ s 16); [reflexivity|reflexivity|exact H]. Qed.

Lemma land_high v : v < 2 ^ 32 -> N.land v MULTICAST_MASK = (v / 2 ^ 17) * 2 ^ 17.
Proof.
  intro H. rewrite <- N.shiftl_mul_pow2, <- N.shiftr_div_pow2. apply N.bits_inj. intro i. rewrite N.land_spec.
  destruct (N.ltb_spec i 17) as [Hi|Hi].
  - rewrite N.shiftl_spec_low by assumption. change MULTICAST_MASK with (N.shiftl (N.ones 15) 17). rewrite N.shiftl_spec_low by assumption. apply andb_false_r.
  - rewrite N.shiftl_spec_high' by assumption. rewrite N.shiftr_spec'. rewrite N.sub_add by assumption.
    change MULTICAST_MASK with (N.shiftl (N.ones 15) 17). rewrite N.shiftl_spec_high' by assumption. destruct (N.ltb_spec i 32) as [Hj|Hj].
    + rewrite N.ones_spec_low by lia. apply andb_true_r.
    + rewrite <- (N.mod_small v (2 ^ 32)) by assumption. rewrite N.mod_pow2_bits_high by assumption. reflexivity.
Qed.

Lemma land_bit v k : N.land v (2 ^ k) = if N.testbit v k then 2 ^ k else 0.
Proof. apply land_pow2_eq. Qed.

Lemma testbit_div v k : N.testbit v k = N.eqb (v / 2 ^ k mod 2) 1.
Proof.
  rewrite N.testbit_eqb. reflexivity.
Qed.

Lemma address_round_trip a :
  match a with ANode n => n < 65535 | AMulticast s => s <= 8191 end -> address_of_ip (ip_of_address a) = Some a.
Proof.
  destruct a as [n|s]; intro H; unfold address_of_ip.
  - rewrite ip_node by lia. rewrite land_high by lia. change SERVICE_NOT_MESSAGE_BIT with (2 ^ 16). rewrite land_bit, testbit_div.
    replace ((239 * 2 ^ 24 + 65536 + n) / 2 ^ 17 * 2 ^ 17) with MULTICAST_BASE by (unfold MULTICAST_BASE; lia).
    rewrite N.eqb_refl. cbn [negb]. replace ((239 * 2 ^ 24 + 65536 + n) / 2 ^ 16 mod 2 =? 1) with true by lia. rewrite N.eqb_refl.
    replace (w16 (239 * 2 ^ 24 + 65536 + n)) with n by (unfold w16; lia). unfold check_node_id, NODE_NONE.
    destruct (N.eqb_spec n 65535); [lia|reflexivity].
  - rewrite ip_subject by lia. rewrite land_high by lia. change SERVICE_NOT_MESSAGE_BIT with (2 ^ 16). change SUBJECT_RESERVED_BIT with (2 ^ 15).
    rewrite !land_bit, !testbit_div.
    replace ((239 * 2 ^ 24 + s) / 2 ^ 17 * 2 ^ 17) with MULTICAST_BASE by (unfold MULTICAST_BASE; lia).
    rewrite N.eqb_refl. cbn [negb]. replace ((239 * 2 ^ 24 + s) / 2 ^ 16 mod 2 =? 1) with false by lia.
    replace ((239 * 2 ^ 24 + s) / 2 ^ 15 mod 2 =? 1) with false by lia. change (0 =? 2 ^ 16) with false. change (0 =? 0) with true. cbv iota. cbn [negb].
    replace (w16 (239 * 2 ^ 24 + s)) with s by (unfold w16; lia). unfold try_le, MAX_SUBJECT. destruct (N.leb_spec s 8191); [reflexivity|lia].
Qed.

Lemma address_of_ip_inv ip a : ip < 2 ^ 32 -> address_of_ip ip = Some a ->
  ip_of_address a = ip /\ match a with ANode n => n < 65535 | AMulticast s => s <= 8191 end.
Proof.
  intros Hip. unfold address_of_ip. rewrite land_high by assumption.
  change SERVICE_NOT_MESSAGE_BIT with (2 ^ 16). change SUBJECT_RESERVED_BIT with (2 ^ 15). rewrite !land_bit, !testbit_div.
  destruct (N.eqb_spec (ip / 2 ^ 17 * 2 ^ 17) MULTICAST_BASE) as [E|]; cbn [negb]; [|discriminate].
  unfold MULTICAST_BASE in E. destruct (N.eqb_spec (ip / 2 ^ 16 mod 2) 1) as [E1|E1].
  - rewrite N.eqb_refl. unfold check_node_id, NODE_NONE, w16. destruct (N.eqb_spec (ip mod 2 ^ 16) 65535); [discriminate|].
    intro H. injection H as <-. rewrite ip_node by lia. split; lia.
  - change (0 =? 2 ^ 16) with false. cbv iota. destruct (N.eqb_spec (ip / 2 ^ 15 mod 2) 1) as [E2|E2]; [discriminate|].
    change (0 =? 0) with true. cbv iota. cbn [negb]. unfold try_le, MAX_SUBJECT, w16. destruct (N.leb_spec (ip mod 2 ^ 16) 8191); [|discriminate].
    intro H'. injection H' as <-. rewrite ip_subject by lia. split; lia.
Qed.

(** ** The CRC iterator *)

Lemma le_bytes_4 n : le_bytes 4 n = [w8 n; w8 (N.shiftr n 8); w8 (N.shiftr n 16); w8 (N.shiftr n 24)].
Proof.
  cbn [le_bytes]. unfold w8. rewrite !N.shiftr_div_pow2, !N.div_div by lia. reflexivity.
Qed.

Lemma addcrc_drain_spec l : forall v k,
  addcrc_drain (length l + 5 + k) (AddCrc l v 0) = l ++ le_bytes 4 (crc32_get (crc32_digest_bytes v l)).
Proof.
  induction l as [|b l IH]; intros v k.
  - rewrite le_bytes_4. destruct k; reflexivity.
  - cbn [length Nat.add addcrc_drain]. unfold addcrc_next at 1. cbn [ac_provided ac_inner ac_crc]. rewrite IH. reflexivity.
Qed.

Lemma add_crc_spec l : add_crc l = l ++ le_bytes 4 (crc32 l).
Proof. unfold add_crc, addcrc_new. rewrite <- (Nat.add_0_r (length l + 5)). apply addcrc_drain_spec. Qed.

(** ** Segmentation *)

Lemma bd_fill_spec mtu hb st : forall index cur, (length cur < mtu)%nat ->
  bd_fill mtu hb st index cur =
  if (length st <? mtu - length cur)%nat then
    if negb (length (cur ++ st) =? SIZE)%nat
    then Ok (Some (take_frame (make_header hb index true) (cur ++ st)), Bd [] index true (repeat 0 SIZE))
    else Ok (None, Bd [] index false (cur ++ st))
  else if negb (N.eqb (N.land (index + 1) LAST_FRAME) 0) then Panic
  else Ok (Some (take_frame (make_header hb index (length st =? mtu - length cur)%nat) (cur ++ firstn (mtu - length cur) st)),
           Bd (skipn (mtu - length cur) st) (index + 1) false (repeat 0 SIZE)).
Proof.
  induction st as [|b st IH]; intros index cur Hc; cbn [bd_fill].
  - rewrite app_nil_r. destruct (Nat.ltb_spec (length (@nil N)) (mtu - length cur)) as [H|H]; [reflexivity|cbn [length] in H; lia].
  - rewrite app_length. cbn [length]. destruct (Nat.eqb_spec (length cur + 1) mtu) as [E|E].
    + replace (mtu - length cur)%nat with 1%nat by lia. cbn [Nat.ltb Nat.leb firstn skipn].
      destruct (negb (N.land (index + 1) LAST_FRAME =? 0)); [reflexivity|]. destruct st; reflexivity.
    + rewrite IH by (rewrite app_length; cbn [length]; lia). rewrite <- !app_assoc, !app_length. cbn [length app].
      replace (mtu - length cur)%nat with (S (mtu - (length cur + 1))) by lia. cbn [firstn skipn].
      change (S (length st) <? S (mtu - (length cur + 1)))%nat with (length st <? mtu - (length cur + 1))%nat.
      change (S (length st) =? S (mtu - (length cur + 1)))%nat with (length st =? mtu - (length cur + 1))%nat.
      reflexivity.
Qed.

Lemma take_frame_zeros h body : take_frame h (repeat 0 24 ++ body) = header_encode h ++ body.
Proof. reflexivity. Qed.

Lemma index_room index : index + 1 < 2 ^ 31 -> N.land (index + 1) LAST_FRAME = 0.
Proof.
  intro H. change LAST_FRAME with (2 ^ 31). rewrite land_top by (change (2 ^ (31 + 1)) with (2 * 2 ^ 31); lia).
  destruct (N.leb_spec (2 ^ 31) (index + 1)); [lia|reflexivity].
Qed.

(** the datagrams from a given index on *)
Definition numbered (mtu : nat) (hb : hbase) (index : N) (bodies ds : list (list N)) : Prop :=
  length ds = length bodies /\
  forall i body, nth_error bodies i = Some body ->
    (0 < length body)%nat /\ (24 + length body <= mtu)%nat /\ ((S i < length bodies)%nat -> (24 + length body = mtu)%nat) /\
    index + N.of_nat i < 2 ^ 31 /\
    nth_error ds i = Some (header_encode (make_header hb (index + N.of_nat i) (S i =? length bodies)%nat) ++ body).

Lemma bd_collect_spec mtu hb fuel : (24 < mtu)%nat -> forall st index,
  (length st < fuel)%nat ->
  index * N.of_nat (mtu - 24) + N.of_nat (length st) < 2 ^ 31 * N.of_nat (mtu - 24) ->
  exists ds bodies, bd_collect fuel mtu hb (Bd st index false (repeat 0 SIZE)) = Ok ds /\
    concat bodies = st /\ numbered mtu hb index bodies ds.
Proof.
  unfold SIZE. intro Hm. induction fuel as [|fuel IH]; intros st index Hf Hi; [lia|]. cbn [bd_collect]. unfold bd_next. cbn [bd_done bd_stream bd_index bd_cur].
  rewrite bd_fill_spec by (rewrite repeat_length; lia). unfold SIZE. rewrite repeat_length, app_length, repeat_length.
  set (m := (mtu - 24)%nat) in *. assert (Hm0 : (0 < m)%nat) by lia.
  destruct (Nat.ltb_spec (length st) m) as [Hlt|Hge].
  - destruct (Nat.eqb_spec (24 + length st) 24) as [E|E]; cbn [negb].
    + exists [], []. destruct st; [|cbn [length] in E; lia]. split; [reflexivity|]. split; [reflexivity|]. split; [reflexivity|]. intros [|] ? Hn; discriminate Hn.
    + rewrite take_frame_zeros. destruct fuel as [|fuel]; [lia|]. cbn [bd_collect]. unfold bd_next. cbn [bd_done].
      exists [header_encode (make_header hb index true) ++ st], [st]. split; [reflexivity|]. split; [cbn [concat]; apply app_nil_r|].
      split; [reflexivity|]. intros [|[|i]] body Hn; try discriminate Hn. injection Hn as <-. cbn [length nth_error].
      split; [lia|]. split; [lia|]. split; [lia|]. split.
      * cbn [N.of_nat]. rewrite N.add_0_r. assert (index * N.of_nat m < 2 ^ 31 * N.of_nat m) by lia. apply N.mul_lt_mono_pos_r in H; [assumption|lia].
      * cbn [N.of_nat]. rewrite N.add_0_r. reflexivity.
  - assert (Hroom : index + 1 < 2 ^ 31).
    { destruct (N.ltb_spec (index + 1) (2 ^ 31)) as [|Hx]; [assumption|exfalso].
      apply (N.mul_le_mono_r _ _ (N.of_nat m)) in Hx. rewrite N.mul_add_distr_r, N.mul_1_l in Hx. lia. }
    rewrite index_room by assumption. change (negb (0 =? 0)) with false. cbv iota. rewrite take_frame_zeros.
    destruct (IH (skipn m st) (index + 1)) as (ds & bodies & E & Hcat & Hlen & Hnum).
    + rewrite skipn_length. lia.
    + rewrite skipn_length, N.mul_add_distr_r, N.mul_1_l. lia.
    + rewrite E.
      exists ((header_encode (make_header hb index (length st =? m)%nat) ++ firstn m st) :: ds), (firstn m st :: bodies).
      split; [reflexivity|]. split; [cbn [concat]; rewrite Hcat; apply firstn_skipn|].
      split; [cbn [length]; lia|].
      assert (Hb : (length st =? m)%nat = (1 =? length (firstn m st :: bodies))%nat).
      { cbn [length]. destruct bodies as [|b0 bodies].
        - cbn [concat] in Hcat. assert (length (skipn m st) = 0%nat) by (rewrite <- Hcat; reflexivity). rewrite skipn_length in H. cbn [length].
          change (1 =? 1)%nat with true. apply Nat.eqb_eq. lia.
        - destruct (Hnum O b0 eq_refl) as (Hp & _). assert (length (skipn m st) = length b0 + length (concat bodies))%nat by (rewrite <- Hcat; cbn [concat]; apply app_length).
          rewrite skipn_length in H. cbn [length]. destruct (Nat.eqb_spec (length st) m); [lia|]. symmetry. apply Nat.eqb_neq. lia. }
      intros [|i] body Hn; cbn [nth_error] in *.
      * injection Hn as <-. rewrite firstn_length. split; [lia|]. split; [lia|]. split; [lia|]. cbn [N.of_nat]. rewrite N.add_0_r. split; [lia|]. rewrite Hb. reflexivity.
      * destruct (Hnum i body Hn) as (H1 & H2 & H3 & H4 & H5). cbn [length].
        replace (index + N.of_nat (S i)) with (index + 1 + N.of_nat i) by lia.
        split; [assumption|]. split; [assumption|]. split; [intro; apply H3; lia|]. split; [assumption|]. exact H5.
Qed.

(** ** Sending *)

Lemma send_frames_spec env deadline ds : forall k,
  let (sent, ok) := send_frames env deadline k ds in
  exists n, (n <= length ds)%nat /\
    sent = map snd (filter (fun x => t_lt (fst (env (fst x))) deadline) (combine (seq k (length (firstn n ds))) (firstn n ds))) /\
    (ok = true -> n = length ds) /\
    (ok = false -> (n < length ds)%nat /\ t_lt (fst (env (k + n)%nat)) deadline = true /\ snd (env (k + n)%nat) = false) /\
    (forall i, (i < n)%nat -> t_lt (fst (env (k + i)%nat)) deadline = true -> snd (env (k + i)%nat) = true).
Proof.
  induction ds as [|d ds IH]; intro k; cbn [send_frames].
  - exists O. repeat split; try (intros; discriminate); try (cbn [length]; lia); intros; lia.
  - specialize (IH (S k)). destruct (env k) as [now okk] eqn:Ek. destruct (t_lt now deadline) eqn:Et.
    + destruct okk.
      * destruct (send_frames env deadline (S k) ds) as [sent res]. destruct IH as (n & H1 & H2 & H3 & H4 & H5). exists (S n). split; [cbn [length]; lia|]. split.
        -- cbn [firstn length seq combine filter]. rewrite H2. cbn [fst]. rewrite Ek. cbn [fst]. rewrite Et. reflexivity.
        -- split; [intro Hr; cbn [length]; rewrite (H3 Hr); reflexivity|]. split.
           ++ intro Hr. destruct (H4 Hr) as (A1 & A2 & A3). rewrite Nat.add_succ_r. split; [cbn [length]; lia|]. auto.
           ++ intros [|i] Hi; [rewrite Nat.add_0_r, Ek; reflexivity|]. rewrite Nat.add_succ_r. apply H5. lia.
      * exists O. split; [lia|]. split; [reflexivity|]. split; [discriminate|]. rewrite Nat.add_0_r, Ek. split; [intros _; cbn [length fst snd]; split; [lia|auto]|]. intros; lia.
    + destruct (send_frames env deadline (S k) ds) as [sent res]. destruct IH as (n & H1 & H2 & H3 & H4 & H5). exists (S n). split; [cbn [length]; lia|]. split.
      * cbn [firstn length seq combine filter]. rewrite H2. cbn [fst]. rewrite Ek. cbn [fst]. rewrite Et. reflexivity.
      * split; [intro Hr; cbn [length]; rewrite (H3 Hr); reflexivity|]. split.
        ++ intro Hr. destruct (H4 Hr) as (A1 & A2 & A3). rewrite Nat.add_succ_r. split; [cbn [length]; lia|]. auto.
        ++ intros [|i] Hi; [rewrite Nat.add_0_r, Ek; cbn [fst]; congruence|]. rewrite Nat.add_succ_r. apply H5. lia.
Qed.
